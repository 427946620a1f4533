(** Properties C127-C130: size limits and slow handlers. *)
From Verif Require Import Bytes BytesProofs Parser Crypto Kdf Wire WireSeq Toy Replay SpecReplay Server ServerSeq SpecServer ServerProps ServerProps2 ServerProps3 ServerExamples
  Keys Client ClientSeq SpecClient SpecE2E ClientExamples LongProofs LongExamples Timed SpecTimed SlowProofs UdpDeadline SpecUdpDeadline UdpDeadlineProofs.

(** C127 is refuted: a Write of more than 2^30 - 16 octets reports success, and
    the server refuses what it sent as malformed; no handler is called. (Shorter
    messages: C45.) *)
Theorem C127_any_length_delivered_refuted : forall C CE SE o, CryptoLaws C -> c_works CE -> (forall i, e_quit SE i = false) ->
  forall ses cs ss p n, length (cs_id ses) = 16%nat -> c_ctr cs + 1 < 2 ^ 64 -> 2 ^ 30 < lenN p + 16 -> lenN p + 16 < 2 ^ 64 ->
  let '(w, _, _, ss') := round C CE SE o ses p n cs ss in
  w = Some (WrConn (lenN p + 50) false) /\ no_calls ss ss' /\ same_sessions C ss ss' /\ exists t, responded ss ss' (RsError 1 t).
Proof. exact long_message. Qed.
Print Assumptions C127_any_length_delivered_refuted.
Example C127_example : exists p : bytes, 2 ^ 30 < lenN p + 16 /\ lenN p + 16 < 2 ^ 64 /\ length (cs_id ex_ses) = 16%nat /\ c_works ex_CE.
Proof. exact long_example. Qed.

(** C128 is refuted: a reply of more than 2^30 - 16 octets is sent, but the client
    refuses it and leaves its octets in the stream, where the next Read takes them
    for a response. *)
Theorem C128_any_reply_arrives_refuted : forall C CE SE o chost, CryptoLaws C ->
  c_works CE -> writes_all SE -> (forall i, e_quit SE i = false) -> e_host SE = Some chost ->
  forall ses hist cs ss p n, co_reply o = true -> paired C ses chost hist cs ss -> c_ctr cs + 1 < 2 ^ 64 ->
  ~ refused_after hist (c_ctr cs + 1) -> lenN p + 16 <= 2 ^ 30 ->
  (forall i, exists out, e_handler SE i true p = HOk out /\ 2 ^ 30 < lenN out + 16 /\ lenN out + 16 < 2 ^ 64) ->
  let '(w, r, cs', ss') := round C CE SE o ses p n cs ss in
  w = Some (WrConn (lenN p + 50) false) /\ (exists ptr, s_calls ss' = s_calls ss ++ [(ptr, c_ctr cs + 1, true, p)]) /\
  r = Some (RdErr (RdParse ELimit)) /\ c_in cs' <> [].
Proof. exact long_reply. Qed.
Print Assumptions C128_any_reply_arrives_refuted.
Example C128_example : paired toy ex_ses ex_host [] (cst0 []) ex_ss /\ ~ refused_after [] 1 /\
  forall i, exists out, e_handler long_SE i true [x41] = HOk out /\ 2 ^ 30 < lenN out + 16 /\ lenN out + 16 < 2 ^ 64.
Proof. exact long_reply_example. Qed.

(** C129 is refuted: the goroutines of a UDP listener share one write deadline.
    One that read the clock early but sets the deadline late moves it back for
    another, whose answer is then lost within its own write timeout. *)
Theorem C129_udp_answer_in_time_refuted : forall wto, 1 < wto -> exists s, usteps wto ust0 s /\ lost_early wto (u_log s).
Proof. exact deadline_back. Qed.
Print Assumptions C129_udp_answer_in_time_refuted.
(** If no time passes between reading the clock and setting the deadline, every
    answer written within the timeout of its own request is sent, whatever other
    requests do; and without a timeout every answer is. Missing: a goroutine that
    is suspended between the two steps. *)
Theorem C129_udp_answer_in_time_partial :
  (forall wto s, prompt wto s -> ~ lost_early wto (u_log s)) /\
  (forall s, usteps 0 ust0 s -> forall i t, ~ In (ULost i t) (u_log s)).
Proof. exact (conj in_time_sent no_timeout_sent). Qed.
Print Assumptions C129_udp_answer_in_time_partial.
(** Two requests with a timeout of 5; the second, at time 3, saves the first,
    whose answer is written at time 6; the second is answered too late. *)
Example C129_example : exists s, prompt 5 s /\ u_log s = [UTook 0 0; UTook 1 3; USent 0 6; ULost 1 8].
Proof. exact shared_example. Qed.

(** C130 is refuted: if the handler returns when the write deadline, set before
    the request was read, has passed, its answer is not sent, the connection is
    closed, and the counter is used up, so that the same request sent again is
    refused as a replay. *)
Theorem C130_slow_handler_answered_refuted : forall C E delay host p sec hist key pt out d m t s,
  e_host E = Some host -> s_map s (session_key C host (pr_id m)) = Some p ->
  s_heap s p = {| ses_secret := sec; ses_win := snd (checks new_window hist) |} ->
  Forall (fun x => x < 2 ^ 64) hist -> pr_counter m < 2 ^ 64 -> ~ refused_after hist (pr_counter m) ->
  new_gcm C sec = Some key -> gcm_open C key (x00 :: repeat x00 3 ++ be_enc 8 (pr_counter m)) (pr_msg m) = Some pt ->
  (forall i, e_handler E i true pt = HOk out) -> pr_reply m = true ->
  t_wd t = Some d -> d <= t_now t + spent delay (t_n t) 5 ->
  let '(r, (_, s')) := trun C E delay (process_after C m) t s in
  r = Some false /\ s_calls s' = s_calls s ++ [(p, pr_counter m, true, pt)] /\
  (exists b, s_sent s' = s_sent s ++ [(b, 0)]) /\
  fst (check_and_update (ses_win (s_heap s' p)) (pr_counter m)) = false.
Proof. exact slow_reply. Qed.
Print Assumptions C130_slow_handler_answered_refuted.
(** With the default timeouts, a request at once, and a handler (effect number 11)
    that takes 6 seconds or 4. *)
Definition ex_slow (secs : N) : option bool * nat * list N :=
  let i := enc_request (ex_process 1 [x41] true) in
  let t := {| t_now := 0; t_arr := repeat 0 (length i); t_eof := 1000; t_rd := None; t_wd := None; t_n := 0 |} in
  let '(r, (_, s')) := tbody toy ex_E (fun k => if Nat.eqb k 11 then secs else 0) 60 5 t (ex_s i) in
  (r, length (s_calls s'), map snd (skipn 1 (s_sent s'))).
Example C130_example : ex_slow 6 = (Some false, 1%nat, [0]) /\ ex_slow 4 = (Some true, 1%nat, [35]).
Proof. vm_compute. split; reflexivity. Qed.
