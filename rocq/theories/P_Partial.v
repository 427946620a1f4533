(** What remains of C16, C47, C71, C73, C76, C91, C97, C98; properties C109 and C110. *)
From Verif Require Import Bytes Parser Crypto Kdf Wire WireSeq Toy Replay Server ServerSeq SpecServer ServerExamples
  Keys Client ClientSeq SpecClient SpecE2E ClientExamples Timed SpecTimed P_Timed TimedClient PartialProofs.

(** C16. The Write that finds the counter exhausted fails and neither encrypts nor
    sends anything. Missing: the Writes after it. *)
Theorem C16_exhaustion_is_final_partial : forall C E o ses p s, c_ctr s + 1 = 2 ^ 64 ->
  let '(r, s') := crun C E (client_write C o ses p) s in
  (r = Some WrExhausted \/ r = Some WrDeadline \/ r = Some WrKey) /\
  c_sent s' = c_sent s /\ c_seals s' = c_seals s /\ c_last s' = c_last s.
Proof. exact exhausted_write. Qed.
Print Assumptions C16_exhaustion_is_final_partial.
Example C16_partial_example :
  let s := {| c_in := []; c_step := 0; c_sent := []; c_ctr := 2 ^ 64 - 1; c_last := 2 ^ 64 - 1; c_buf := []; c_seals := [] |} in
  c_ctr s + 1 = 2 ^ 64 /\ fst (crun toy ex_CE (client_write toy ex_opts ex_ses [x41]) s) = Some WrExhausted.
Proof. vm_compute. auto. Qed.

(** C47. The empty reply is taken from the stream and leaves nothing behind, and is
    never taken for data. Missing: the result io.EOF for a non-empty p. *)
Theorem C47_empty_reply_is_eof_partial : forall C, CryptoLaws C -> forall E o ses n s oc rest key,
  c_works E -> c_buf s = [] -> c_in s = oc ++ rest -> client_gcm C (cs_secret ses) = Some key ->
  process_response_octets oc (c_last s) (gcm_seal C key (x01 :: repeat x00 3 ++ be_enc 8 (c_last s)) []) ->
  exists r s', crun C E (client_read C o ses n) s = (Some r, s') /\ c_in s' = rest /\ c_buf s' = [] /\
    (c_sent s' = c_sent s /\ c_ctr s' = c_ctr s /\ c_last s' = c_last s /\ c_seals s' = c_seals s) /\
    forall data eof, r = RdOk data eof -> data = [] /\ eof = true.
Proof. exact empty_reply_consumed. Qed.
Print Assumptions C47_empty_reply_is_eof_partial.
Example C47_partial_example :
  process_response_octets (ex_reply []) 1 (gcm_seal toy ex_ckey (x01 :: repeat x00 3 ++ be_enc 8 1) []) /\
  let '(r, s') := crun toy ex_CE (client_read toy ex_opts ex_ses 512) (ex_cs (ex_reply [] ++ [x80])) in
  r = Some (RdErr RdBuffer) /\ c_in s' = [x80].
Proof. split; [apply ex_reply_octets; discriminate|vm_compute; auto]. Qed.

(** C71. If nothing is left over from an earlier reply, then what Read returns after
    a Write is the beginning of a message that was on the stream as a response to
    exactly that request, sealed with the session's key in the direction to the
    client. Missing: a buffer that still holds octets of an earlier reply. *)
Theorem C71_read_answers_last_write_partial : forall C E o ses p n s, c_buf s = [] ->
  let '(w, s1) := crun C E (client_write C o ses p) s in
  let '(r, s2) := crun C E (client_read C o ses n) s1 in
  (forall k e, w = Some (WrConn k e) -> c_last s1 = (c_ctr s + 1) mod 2 ^ 64 /\ c_ctr s1 = c_last s1) /\
  forall data eof, r = Some (RdOk data eof) ->
  exists oc ct key m, process_response_octets oc (c_last s1) ct /\ c_in s = oc ++ c_in s2 /\
    client_gcm C (cs_secret ses) = Some key /\ gcm_open C key (x01 :: repeat x00 3 ++ be_enc 8 (c_last s1)) ct = Some m /\
    data = takeN n m /\ eof = (lenN m <=? n) /\ c_buf s2 = dropN n m.
Proof. exact read_after_write. Qed.
Print Assumptions C71_read_answers_last_write_partial.
Example C71_partial_example :
  let '(w, s1) := crun toy ex_CE (client_write toy ex_opts ex_ses [x41]) (cst0 (ex_reply [x01; x02; x03])) in
  let '(r, s2) := crun toy ex_CE (client_read toy ex_opts ex_ses 2) s1 in
  w = Some (WrConn 51 false) /\ c_last s1 = 1 /\ r = Some (RdOk [x01; x02] false) /\ c_buf s2 = [x03] /\ c_in s2 = [].
Proof. vm_compute. auto 6. Qed.

(** C73. An error reported as the server's was on the stream as an error response,
    with that code and text. Missing: that the server sent it. *)
Theorem C73_errors_are_the_servers_partial : forall C E o ses n s code msg s', c_buf s = [] ->
  crun C E (client_read C o ses n) s = (Some (RdErr (RdRemote code msg)), s') ->
  exists b0, b2n b0 < 128 /\ code < 2 ^ 32 /\ lenN msg < 2 ^ 63 /\
    c_in s = b0 :: be_enc 4 code ++ be_enc 8 (lenN msg) ++ msg ++ c_in s'.
Proof. exact remote_error_on_wire. Qed.
Print Assumptions C73_errors_are_the_servers_partial.
Example C73_partial_example : let '(r, s') := crun toy ex_CE (client_read toy ex_opts ex_ses 9) (ex_cs (enc_response (RsError 77 [x41]) ++ [x42])) in
  r = Some (RdErr (RdRemote 77 [x41])) /\ c_in s' = [x42].
Proof. vm_compute. auto. Qed.

(** C76. A Setup of another host or for another id leaves a session alone (unless
    SHA-256 collides). Missing: the same host and id. *)
Theorem C76_session_not_replaceable_partial : forall C, CryptoLaws C -> forall E s id pub rest h i, request_ok (RqSetup id pub) ->
  s_in s = enc_request (RqSetup id pub) ++ rest -> e_quit E (s_step s) = false -> wf s ->
  length i = 16%nat -> (forall host, e_host E = Some host -> (h, i) <> (host, id) /\ ~ collision C h i host id) ->
  known C (snd (srun C E (conn_body C) s)) h i = known C s h i.
Proof. exact setup_elsewhere. Qed.
Print Assumptions C76_session_not_replaceable_partial.
Example C76_partial_example : let s := ex_s (enc_request (RqSetup (repeat x08 16) (x_pub toy [x01; x02]))) in
  known toy s ex_host ex_id <> None /\ known toy s ex_host (repeat x08 16) = None /\
  let s' := snd (srun toy ex_E (conn_body toy) s) in
  known toy s' ex_host ex_id = known toy s ex_host ex_id /\ known toy s' ex_host (repeat x08 16) <> None.
Proof. vm_compute. repeat split; discriminate. Qed.

(** C91. Before the write timeout has passed, counted from the last Write, the test
    of an idle connection sends its Hello and takes the answer. Missing: any later
    time. *)
Theorem C91_idle_usable_partial : forall C E delay rto wto reply ses p t s, 0 < wto -> ce_deadline E (c_step s) = true ->
  let t1 := fst (snd (timed_write C E delay rto wto reply ses p t s)) in
  forall E' dl t2 s2 b rest a arr, t_wd t2 = t_wd t1 -> t_now t2 < t_now t + wto -> c_in s2 = b :: rest -> t_arr t2 = a :: arr ->
    (forall i x, ce_write E' i x = (lenN x, false)) -> past (t_rd t2) (N.max (t_now t2 + delay (t_n t2)) a) = false ->
    let after := tcrun C E' delay dl test_on_borrow t2 s2 in
    fst after = Some (N.shiftr (b2n b) 7 =? 1) /\ c_in (snd (snd after)) = rest /\ c_sent (snd (snd after)) = c_sent s2 ++ [([x11], 1)].
Proof. exact idle_in_time. Qed.
Print Assumptions C91_idle_usable_partial.
Example C91_partial_example : let t1 := fst (snd (timed_write toy ex_CE (fun _ => 0) 5 5 true ex_ses [x41] (ex_t 1 7) (cst0 []))) in
  past (t_rd (t_at t1 4 [4])) 4 = false /\
  fst (tcrun toy ex_CE (fun _ => 0) (fun t => t) test_on_borrow (t_at t1 4 [4]) (cst0 [x80])) = Some true.
Proof. vm_compute. auto. Qed.

(** C98. With the timeouts switched off, the deadlines set by the user hold: Read
    does not wait beyond its deadline, and a Write after its deadline sends no
    octet. Missing: the timeouts switched on. *)
Theorem C98_user_deadline_read_partial : forall C E delay wto reply ses n t s d, t_rd t = Some d ->
  exists k, t_now (fst (snd (timed_read C E delay 0 wto reply ses n t s))) <= N.max (t_now t) d + spent delay (t_n t) k /\
    t_n (fst (snd (timed_read C E delay 0 wto reply ses n t s))) = (t_n t + k)%nat.
Proof. exact read_keeps_deadline. Qed.
Print Assumptions C98_user_deadline_read_partial.
Theorem C98_user_deadline_write_partial : forall C E delay rto reply ses p t s d, t_wd t = Some d -> d <= t_now t ->
  let '(r, (_, s')) := timed_write C E delay rto 0 reply ses p t s in
  (r = Some (WrConn 0 true) \/ r = Some WrExhausted \/ r = Some WrKey) /\
  map (fun x => takeN (snd x) (fst x)) (c_sent s') = map (fun x => takeN (snd x) (fst x)) (c_sent s) ++
    (match r with Some (WrConn _ _) => [[]] | _ => [] end).
Proof. exact write_keeps_deadline. Qed.
Print Assumptions C98_user_deadline_write_partial.
Example C98_partial_example :
  let t := {| t_now := 3; t_arr := [90]; t_eof := 99; t_rd := Some 8; t_wd := Some 2; t_n := 0 |} in
  t_now (fst (snd (timed_read toy ex_CE (fun _ => 0) 0 0 true ex_ses 9 t (cst0 [x80])))) = 8 /\
  fst (timed_write toy ex_CE (fun _ => 0) 0 0 true ex_ses [x41] t (cst0 [])) = Some (WrConn 0 true).
Proof. vm_compute. split; reflexivity. Qed.

(** C109 (and what remains of C97). The test of a connection with nothing unread on
    it succeeds against a running server, takes exactly the answer from the stream
    and changes no session and no counter. *)
Theorem C109_hello : forall C CE SE cs ss, (forall i x, ce_write CE i x = (lenN x, false)) -> writes_all SE -> (forall i, e_quit SE i = false) ->
  let '(r, ss') := srun C SE (conn_body C) (set_in ss [x11]) in
  let '(ok, cs') := crun C CE test_on_borrow (c_set_in cs (sent_by_server ss ss')) in
  sent_by_client cs cs' = [x11] /\ r = Some true /\ same_sessions C ss ss' /\ no_calls ss ss' /\ s_in ss' = [] /\
  ok = Some true /\ c_in cs' = [] /\ c_buf cs' = c_buf cs /\ c_last cs' = c_last cs /\ c_ctr cs' = c_ctr cs.
Proof. exact e2e_hello. Qed.
Print Assumptions C109_hello.
Example C109_example : writes_all ex_SE /\
  let '(r, ss') := srun toy ex_SE (conn_body toy) (set_in ex_ss [x11]) in
  r = Some true /\ sent_by_server ex_ss ss' = [x80] /\ fst (crun toy ex_CE test_on_borrow (ex_cs [x80])) = Some true.
Proof. split; [intros i b; split; [apply N.le_refl|reflexivity]|vm_compute; auto]. Qed.

(** C110. With a read timeout, Read returns within it, however the octets of the
    answer trickle in: at most the timeout and the time its [k] effects took. *)
Theorem C110_read_bounded : forall C E delay rto wto reply ses n t s, 0 < rto ->
  exists k, t_now (fst (snd (timed_read C E delay rto wto reply ses n t s))) <= t_now t + rto + spent delay (t_n t) k /\
    t_n (fst (snd (timed_read C E delay rto wto reply ses n t s))) = (t_n t + k)%nat.
Proof. exact read_bounded. Qed.
Print Assumptions C110_read_bounded.
(** One octet of the reply every 2 units: given up at 5. *)
Example C110_example :
  let t := {| t_now := 0; t_arr := [1; 3; 5; 7; 9; 11; 13; 15; 17; 19; 21]; t_eof := 99; t_rd := None; t_wd := None; t_n := 0 |} in
  t_now (fst (snd (timed_read toy ex_CE (fun _ => 0) 5 5 true ex_ses 9 t (ex_cs (firstn 11 (ex_reply [x41])))))) = 5.
Proof. vm_compute. reflexivity. Qed.
