(** Property C153: one goroutine writes to a client while another reads. *)
From Verif Require Import Bytes Parser Crypto Wire Toy Server Keys Client ClientSeq SpecClient ClientExamples Udp Duplex SpecDuplex DuplexProofs DuplexExamples.

(** C153 is refuted over UDP: a Write in the middle of a Read makes the Read go on
    in the next datagram. Both answers arrived, once, in order and intact, and both
    Reads fail. *)
Theorem C153_duplex_refuted : exists C E o ses n key chunk srv ds fs ps s sched z rs,
  CryptoLaws C /\ c_works E /\ client_gcm C (cs_secret ses) = Some key /\ answers C key (c_ctr s) ds fs /\
  Forall (fun d => d <> [] /\ lenN d <= n) ds /\ length ps = length ds /\ c_ctr s + lenN ps < 2 ^ 64 /\ c_buf s = [] /\
  udup_run C E chunk (fun _ _ => true) srv sched (uduplex C o ses n ps fs s) = Some z /\
  z_todo z = [] /\ n_in (snd (z_u z)) = [] /\ z_rd z = CRet rs /\ rs <> [] /\ forall r, In r rs -> exists e, r = RdErr e.
Proof. exact both_lost. Qed.
Print Assumptions C153_duplex_refuted.

(** Over TCP it holds, however the two goroutines, the server and the network take
    turns: all comes to an end, and when nothing can happen any more every Read
    returned its answer or the error that the answer is to an older message, and the
    last Read returned the answer to the last Write. *)
Theorem C153_duplex_partial : forall C, CryptoLaws C -> forall E o ses n key ds fs ps s, c_works E ->
  client_gcm C (cs_secret ses) = Some key -> answers C key (c_ctr s) ds fs ->
  Forall (fun d => d <> [] /\ lenN d <= n) ds -> length ps = length ds -> c_ctr s + lenN ps < 2 ^ 64 ->
  c_buf s = [] -> c_in s = [] ->
  let x := duplex C o ses n ps fs s in
  always_ends (dup_move C E) x /\
  forall sched y, dup_run C E sched x = Some y ->
    (exists v, dup_move C E y v <> None) \/ exists rs, x_rd y = CRet rs /\ read_well ds rs.
Proof. exact duplex_tcp. Qed.
Print Assumptions C153_duplex_partial.
Example C153_example : answers toy ex_ckey (c_ctr cst00) two_ds two_fs /\
  Forall (fun d => d <> [] /\ lenN d <= 9) two_ds /\ length two_ps = length two_ds /\
  exists y, dup_run toy ex_CE overlap_tcp (duplex toy ex_opts ex_ses 9 two_ps two_fs cst00) = Some y /\
    x_rd y = CRet [RdErr RdCounter; RdOk [x63] true].
Proof. exact overlap_example. Qed.

(** Over TCP an answer is only lost to a later message that was begun before the
    Read of the answer was over: if at some time the reader has taken all octets of
    the answers so far and waits or is done, and no later message is begun, then the
    Read of the last of these answers returned it. *)
Theorem C153_in_time_partial : forall C, CryptoLaws C -> forall E o ses n key ds fs ps s, c_works E ->
  client_gcm C (cs_secret ses) = Some key -> answers C key (c_ctr s) ds fs ->
  Forall (fun d => d <> [] /\ lenN d <= n) ds -> length ps = length ds -> c_ctr s + lenN ps < 2 ^ 64 ->
  c_buf s = [] -> c_in s = [] ->
  forall sched1 sched2 y z i d rs, nth_error ds i = Some d ->
    dup_run C E sched1 (duplex C o ses n ps fs s) = Some y ->
    c_ctr (x_cs y) = c_ctr s + N.of_nat (S i) ->
    x_todo y = skipn (S i) fs -> x_chan y = [] -> c_in (x_cs y) = [] -> dup_move C E y MRead = None ->
    dup_run C E sched2 y = Some z -> x_rd z = CRet rs -> nth_error rs i = Some (RdOk d true).
Proof. exact duplex_in_time. Qed.
Print Assumptions C153_in_time_partial.
Example C153_in_time_example : exists y z, dup_run toy ex_CE in_time1 (duplex toy ex_opts ex_ses 9 two_ps two_fs cst00) = Some y /\
  c_ctr (x_cs y) = c_ctr cst00 + 1 /\ length (x_todo y) = 1%nat /\ x_chan y = [] /\ c_in (x_cs y) = [] /\ dup_move toy ex_CE y MRead = None /\
  dup_run toy ex_CE in_time2 y = Some z /\ x_rd z = CRet [RdOk [x61; x62] true; RdOk [x63] true].
Proof. exact in_time_example. Qed.
