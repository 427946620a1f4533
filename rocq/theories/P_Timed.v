(** Properties C68, C90, C91, C96-C98, C149: deadlines. *)
From Verif Require Import Bytes Parser Crypto Wire WireSeq Toy Replay Server ServerSeq SpecServer ServerExamples
  Keys Client ClientSeq ClientExamples Timed SpecTimed TimedProofs TimedArrival.

(** Fresh connection at time 0; input of [n] octets arriving at [a]. *)
Definition ex_t (n : nat) (a : N) : tio :=
  {| t_now := 0; t_arr := repeat a n; t_eof := 1000; t_rd := None; t_wd := None; t_n := 0 |}.

(** C68 is refuted: the write timeout runs while the server waits for the request.
    A Hello that arrives after the write timeout but before the read timeout gets
    no octet, and the connection is closed. *)
Theorem C68_late_request_answered_refuted : forall C E delay rto wto a rest arr t s,
  e_quit E (s_step s) = false -> s_in s = x11 :: rest -> t_arr t = a :: arr ->
  t_now t <= a -> 0 < wto -> t_now t + wto <= a -> a < t_now t + rto ->
  fst (tbody C E delay rto wto t s) = Some false /\
  exists s', snd (snd (tbody C E delay rto wto t s)) = s' /\ s_sent s' = s_sent s ++ [(enc_resp_common hello_response, 0)].
Proof. exact request_lost. Qed.
Print Assumptions C68_late_request_answered_refuted.
(** With the default timeouts of 60 and 5 seconds, nothing else taking any time: a
    request 10 seconds after the previous one is given to the handler, but not
    answered; without deadlines it is answered. *)
Definition ex_late : bytes := enc_request (ex_process 1 [x41] true).
Example C68_example :
  let '(r, (_, s')) := tbody toy ex_E (fun _ => 0) 60 5 (ex_t (length ex_late) 10) (ex_s ex_late) in
  r = Some false /\ length (s_calls s') = 1%nat /\ map snd (s_sent s') = [lenN (fst (hd ([], 0) (s_sent (ex_s [])))); 0] /\
  fst (srun toy ex_E (conn_body toy) (ex_s ex_late)) = Some true.
Proof. vm_compute. repeat split. Qed.
(** What holds: as long as each request arrives, is handled and answered within
    both timeouts, counted from when the server began to wait for it, the
    connection behaves as if there were no deadlines, so all that is proved of
    [serve] holds. *)
Theorem C68_late_request_answered_partial : forall C E delay rto wto fuel t s,
  fresh_conn t -> punctual C E delay rto wto fuel t s ->
  serve C E fuel s = (fst (tserve C E delay rto wto fuel t s), snd (snd (tserve C E delay rto wto fuel t s))).
Proof. exact punctual_serve. Qed.
Print Assumptions C68_late_request_answered_partial.
(** A request at 4, the end of the input at 6. *)
Example C68_partial_example :
  let t := {| t_now := 0; t_arr := repeat 4 (length ex_late); t_eof := 6; t_rd := None; t_wd := None; t_n := 0 |} in
  punctual toy ex_E (fun _ => 0) 60 5 3 t (ex_s ex_late) /\
  let '(f, (_, s')) := tserve toy ex_E (fun _ => 0) 60 5 3 t (ex_s ex_late) in
  f = Closed /\ length (s_calls s') = 1%nat /\ length (s_sent s') = 2%nat.
Proof. vm_compute. repeat split; auto; try discriminate; right; reflexivity. Qed.

(** C90 is refuted: no deadline is set while dialling. With a server that accepts
    the connection and stays silent, the handshake takes as long as the server
    likes, whatever the timeouts. *)
Theorem C90_dial_times_out_refuted : forall C E delay rto wto host pk rnd sk t s,
  t_rd t = None -> t_wd t = None -> c_in s = [] ->
  ce_fetch E host = Some pk -> ce_rand E = Some rnd -> ce_gen E = Some sk ->
  (forall i b, ce_write E i b = (lenN b, false)) ->
  (exists e, fst (timed_handshake C E delay rto wto (Some host) t s) = Some (inl (HsParse e))) /\
  t_eof t <= t_now (fst (snd (timed_handshake C E delay rto wto (Some host) t s))).
Proof. exact dial_waits. Qed.
Print Assumptions C90_dial_times_out_refuted.
Example C90_example : ce_fetch ex_CE ex_name = Some (PkEd25519 (ed_pub toy [x07])) /\
  t_now (fst (snd (timed_handshake toy ex_CE (fun _ => 0) 5 5 (Some ex_name) (ex_t 0 0) (cst0 [])))) = 1000.
Proof. vm_compute. split; reflexivity. Qed.

(** C91 is refuted: the write deadline of the last Write stays on the pooled
    connection, and the test before borrowing does not set a new one. Once the
    write timeout has passed, the test fails without sending anything, whatever
    the network does. *)
Theorem C91_idle_usable_refuted : forall C E delay rto wto reply ses p t s, 0 < wto -> ce_deadline E (c_step s) = true ->
  let t1 := fst (snd (timed_write C E delay rto wto reply ses p t s)) in
  forall E' dl t2 s2, t_wd t2 = t_wd t1 -> t_now t + wto <= t_now t2 ->
    let after := tcrun C E' delay dl test_on_borrow t2 s2 in
    fst after = Some false /\ c_sent (snd (snd after)) = c_sent s2 ++ [([x11], 0)] /\ c_in (snd (snd after)) = c_in s2.
Proof. exact idle_fails. Qed.
Print Assumptions C91_idle_usable_refuted.
Example C91_example : let t1 := fst (snd (timed_write toy ex_CE (fun _ => 0) 5 5 true ex_ses [x41] (ex_t 1 7) (cst0 []))) in
  t_wd t1 = Some 5 /\
  fst (tcrun toy ex_CE (fun _ => 0) (fun t => t) test_on_borrow (t_at t1 6 [6]) (cst0 [x80])) = Some false /\
  fst (tcrun toy ex_CE (fun _ => 0) (fun t => t) test_on_borrow (t_at t1 4 [4]) (cst0 [x80])) = Some true.
Proof. vm_compute. repeat split. Qed.

(** C96. The goroutine of a connection is not held by a client that stalls: one
    iteration takes at most the read timeout and the time the [k] effects took. *)
Theorem C96_stalling_bounded : forall C E delay rto wto t s, 0 < rto ->
  exists k, t_now (fst (snd (tbody C E delay rto wto t s))) <= t_now t + rto + spent delay (t_n t) k /\
    t_n (fst (snd (tbody C E delay rto wto t s))) = (t_n t + k)%nat.
Proof. exact tbody_bound. Qed.
Print Assumptions C96_stalling_bounded.
(** Octets of a Setup trickling in, one every 25 units: given up at 60. *)
Example C96_example : let t := {| t_now := 0; t_arr := [0; 25; 50; 75; 100; 125; 150; 175; 200]; t_eof := 1000; t_rd := None; t_wd := None; t_n := 0 |} in
  t_now (fst (snd (tbody toy ex_E (fun _ => 0) 60 5 t (ex_s (firstn 9 (enc_request ex_setup)))))) = 60.
Proof. vm_compute. reflexivity. Qed.

(** C97 is refuted: a client given back with an unread reply passes the test on
    the first octet of that reply, whose other octets stay where the next borrower
    reads. *)
Theorem C97_tested_is_usable_refuted : forall C E s b rest, c_in s = b :: rest -> (forall i x, ce_write E i x = (lenN x, false)) ->
  exists s', crun C E test_on_borrow s = (Some (N.shiftr (b2n b) 7 =? 1), s') /\ c_in s' = rest /\
    c_sent s' = c_sent s ++ [([x11], 1)] /\ c_last s' = c_last s /\ c_buf s' = c_buf s /\ c_ctr s' = c_ctr s.
Proof. exact borrow_takes. Qed.
Print Assumptions C97_tested_is_usable_refuted.
(** The next borrower writes, the server answers both Hello and message, and Read fails. *)
Example C97_example : let s1 := snd (crun toy ex_CE test_on_borrow (ex_cs (ex_reply [x41] ++ [x80]))) in
  fst (crun toy ex_CE test_on_borrow (ex_cs (ex_reply [x41] ++ [x80]))) = Some true /\
  exists e, fst (crun toy ex_CE (client_read toy ex_opts ex_ses 10) s1) = Some (RdErr e).
Proof. vm_compute. split; [reflexivity|eexists; reflexivity]. Qed.

(** C98 is refuted: with the timeouts switched on (the default), Read and Write
    replace the deadline the user has set, whatever it is. *)
Theorem C98_user_deadline_write_refuted : forall C E delay rto wto reply ses p t d s, 0 < wto -> ce_deadline E (c_step s) = true ->
  timed_write C E delay rto wto reply ses p {| t_now := t_now t; t_arr := t_arr t; t_eof := t_eof t; t_rd := t_rd t; t_wd := d; t_n := t_n t |} s
  = timed_write C E delay rto wto reply ses p t s.
Proof. exact write_ignores_deadline. Qed.
Print Assumptions C98_user_deadline_write_refuted.
Theorem C98_user_deadline_read_refuted : forall C E delay rto wto ses n t d s, 0 < rto -> ce_deadline E (c_step s) = true ->
  timed_read C E delay rto wto true ses n {| t_now := t_now t; t_arr := t_arr t; t_eof := t_eof t; t_rd := d; t_wd := t_wd t; t_n := t_n t |} s
  = timed_read C E delay rto wto true ses n t s.
Proof. exact read_ignores_deadline. Qed.
Print Assumptions C98_user_deadline_read_refuted.
(** A write at time 3 with a deadline that has just passed is sent; without
    timeouts it is not. *)
Example C98_example :
  let t := {| t_now := 3; t_arr := []; t_eof := 9; t_rd := None; t_wd := Some 2; t_n := 0 |} in
  map snd (c_sent (snd (snd (timed_write toy ex_CE (fun _ => 0) 5 5 true ex_ses [x41] t (cst0 []))))) = [51] /\
  map snd (c_sent (snd (snd (timed_write toy ex_CE (fun _ => 0) 0 0 true ex_ses [x41] t (cst0 []))))) = [0].
Proof. vm_compute. split; reflexivity. Qed.

(** C149. With a read timeout, Read uses only octets that arrived before the
    timeout passed, and before it returned: a late reply is not returned. *)
Theorem C149_read_in_time : forall C E delay rto wto reply ses n t s,
  0 < rto -> ce_deadline E (c_step s) = true -> length (t_arr t) = length (c_in s) ->
  let '(_, (t', s')) := timed_read C E delay rto wto reply ses n t s in
  taken (fun x => x <= t_now t' /\ x < t_now t + rto) (c_in s) (c_in s') (t_arr t) (t_arr t').
Proof. exact read_in_time. Qed.
Print Assumptions C149_read_in_time.
(** A late octet: Read fails, and 3 octets are used. *)
Example C149_example :
  let t := {| t_now := 0; t_arr := 1 :: 1 :: 4 :: repeat 6 (length (ex_reply [x41]) - 3); t_eof := 99; t_rd := None; t_wd := None; t_n := 0 |} in
  length (t_arr t) = length (ex_reply [x41]) /\
  let '(r, (t', s')) := timed_read toy ex_CE (fun _ => 0) 5 5 true ex_ses 9 t (ex_cs (ex_reply [x41])) in
  (exists e, r = Some (RdErr e)) /\ length (c_in s') = (length (ex_reply [x41]) - 3)%nat /\ t_now t' = 5 /\
  fst (timed_read toy ex_CE (fun _ => 0) 7 7 true ex_ses 9 t (ex_cs (ex_reply [x41]))) = Some (RdOk [x41] true).
Proof. vm_compute. repeat split. eexists. reflexivity. Qed.

(** So does the server with a request. *)
Theorem C149_request_in_time : forall C E delay rto wto t s, 0 < rto -> length (t_arr t) = length (s_in s) ->
  let '(_, (t', s')) := tbody C E delay rto wto t s in
  taken (fun x => x <= t_now t' /\ x < t_now t + rto) (s_in s) (s_in s') (t_arr t) (t_arr t').
Proof. exact request_in_time. Qed.
Print Assumptions C149_request_in_time.
Example C149_request_example :
  let '(r, (t', s')) := tbody toy ex_E (fun _ => 0) 60 5 (ex_t (length ex_late) 10) (ex_s ex_late) in
  length (t_arr (ex_t (length ex_late) 10)) = length (s_in (ex_s ex_late)) /\ s_in s' = [] /\ t_now t' = 10 /\
  length (s_calls s') = 1%nat.
Proof. vm_compute. repeat split. Qed.

(** C152. A client of a pool passes the test exactly if the Hello was written and
    an octet with the success bit came back: a connection that the server closed,
    that fails or on which an error is reported does not pass. The test never
    panics and leaves the session's state as it was. *)
Theorem C152_dead_fails : forall C E s, let '(r, s') := crun C E test_on_borrow s in
  (r = Some true <-> (exists n, ce_write E (c_step s) [x11] = (n, false) /\ 1 <= n) /\
                     exists b rest, c_in s = b :: rest /\ 128 <= b2n b) /\
  (r = Some true \/ r = Some false) /\
  c_last s' = c_last s /\ c_buf s' = c_buf s /\ c_ctr s' = c_ctr s /\ c_seals s' = c_seals s.
Proof. exact borrow_iff. Qed.
Print Assumptions C152_dead_fails.
Example C152_example :
  fst (crun toy ex_CE test_on_borrow (cst0 [])) = Some false /\ fst (crun toy ex_CE test_on_borrow (cst0 [x00])) = Some false /\
  fst (crun toy ex_CE test_on_borrow (cst0 [x80])) = Some true.
Proof. vm_compute. auto. Qed.
