(** Properties C172, C173: a deadline that passes while a request or a reply is
    being read. *)
From Verif Require Import Bytes Parser Crypto Wire WireSeq Toy Replay Server ServerSeq SpecServer ServerExamples MultiConn
  Keys Client ClientSeq ClientExamples Timed SpecTimed StallProofs.

(** C172 is refuted for servers without a write timeout, or with one above the
    read timeout: when the read timeout passes inside a request, the server
    reports a malformed request and goes on; what is left of the request, here
    octets of its ciphertext, is read as the next request. *)
Theorem C172_rest_not_executed_refuted : forall C E delay rto wto t s id ctr a q b reply rest e l,
  (forall i, delay i = 0) -> 0 < rto -> (wto = 0 /\ t_wd t = None \/ rto < wto) ->
  e_quit E (s_step s) = false -> writes_all E -> length id = 16%nat -> ctr < 2 ^ 64 -> lenN (a ++ enc_request q ++ b) <= 2 ^ 30 ->
  s_in s = enc_request (RqProcess id ctr (a ++ enc_request q ++ b) reply) ++ rest ->
  t_arr t = e ++ l -> length e = (34 + length a)%nat -> l <> [] -> Forall (fun x => x <= t_now t) e -> Forall (fun x => t_now t + rto <= x) l ->
  exists t' s', tbody C E delay rto wto t s = (Some true, (t', s')) /\ s_in s' = enc_request q ++ b ++ rest /\
    t_now t' = t_now t + rto /\ t_arr t' = l /\ mem_of s' = mem_of s /\ s_calls s' = s_calls s /\
    (exists k, s_sent s' = s_sent s ++ [(enc_error_resp (new_error_response code_malformed msg_parse), k)]).
Proof. exact slow_reinterpreted. Qed.
Print Assumptions C172_rest_not_executed_refuted.
(** A request of which 35 octets arrive at once and the rest after 5 seconds, when
    the read timeout of 5 seconds has passed; its ciphertext contains octets that
    read as a request of a session. Without a write timeout these are given to
    the handler; with one of 5 seconds the connection is closed. *)
Definition slow_in : bytes := enc_request (RqProcess (repeat x07 16) 9 ([x00] ++ enc_request (ex_process 1 [x41] true) ++ [x00]) true).
Definition slow_t : tio :=
  {| t_now := 0; t_arr := repeat 0 35 ++ repeat 5 (length slow_in - 35); t_eof := 100; t_rd := None; t_wd := None; t_n := 0 |}.
Example C172_example :
  (length (t_arr slow_t) = length slow_in /\ e_quit ex_E 0 = false) /\
  map snd (s_calls (snd (snd (tserve toy ex_E (fun _ => 0) 5 0 2 slow_t (ex_s slow_in))))) = [[x41]] /\
  map snd (s_calls (snd (srun toy ex_E (conn_body toy) (ex_s slow_in)))) = [] /\
  (let '(f, (_, s')) := tserve toy ex_E (fun _ => 0) 5 5 2 slow_t (ex_s slow_in) in f = Closed /\ s_calls s' = []).
Proof. vm_compute. repeat split. Qed.
(** What holds. One iteration either does what it would do without deadlines, but
    for what is written after the write timeout, in which case it ends the
    connection; or the read timeout passed, no session changed, no handler was
    called, and at most one octet string was sent, the report of a malformed
    request. If there is a write timeout and it is not above the read timeout, as
    by default, the connection then ends. Missing: that it ends otherwise. *)
Theorem C172_rest_not_executed_partial : forall C E delay rto wto t s,
  let '(r, (t', s')) := tbody C E delay rto wto t s in let '(r0, s0) := srun C E (conn_body C) s in
  (mem_of s' = mem_of s0 /\ s_calls s' = s_calls s0 /\ s_in s' = s_in s0 /\ ((r, s') = (r0, s0) \/ r = Some false)) \/
  (mem_of s' = mem_of s /\ s_calls s' = s_calls s /\ (exists l, s_in s = l ++ s_in s') /\
   (s_sent s' = s_sent s \/ exists n, s_sent s' = s_sent s ++ [(enc_error_resp (new_error_response code_malformed msg_parse), n)]) /\
   (0 < rto -> t_now t + rto <= t_now t') /\ (r = Some true \/ r = Some false) /\ (0 < wto <= rto -> r = Some false)).
Proof. exact slow_request. Qed.
Print Assumptions C172_rest_not_executed_partial.

(** C173. A timeout does not change what Read returns but for making it fail: Read
    on a connection with deadlines does what it would do without, or reports an
    I/O error after the deadline, having taken octets from the stream but
    changed nothing else. In particular no part of a reply is returned as a
    reply. *)
Theorem C173_timeout_no_wrong_reply : forall C E delay rto wto reply ses n t s,
  let '(r, (t', s')) := timed_read C E delay rto wto reply ses n t s in
  (r, s') = crun C E (client_read C (with_timeouts rto wto reply) ses n) s \/
  (r = Some (RdErr (RdParse EIO)) /\ past (if 0 <? rto then Some (t_now t + rto) else t_rd t) (t_now t') = true /\
   (exists l, c_in s = l ++ c_in s') /\
   c_buf s' = c_buf s /\ c_last s' = c_last s /\ c_ctr s' = c_ctr s /\ c_sent s' = c_sent s /\ c_seals s' = c_seals s).
Proof. exact stall_reply. Qed.
Print Assumptions C173_timeout_no_wrong_reply.
(** All but the last octet of a reply in time: with a timeout of 5 seconds Read
    fails, with 7 seconds it returns the reply. *)
Definition slow_reply_t : tio :=
  {| t_now := 0; t_arr := repeat 1 (length (ex_reply [x41]) - 1) ++ [6]; t_eof := 99; t_rd := None; t_wd := None; t_n := 0 |}.
Example C173_example :
  fst (timed_read toy ex_CE (fun _ => 0) 5 5 true ex_ses 9 slow_reply_t (ex_cs (ex_reply [x41]))) = Some (RdErr (RdParse EIO)) /\
  fst (timed_read toy ex_CE (fun _ => 0) 7 7 true ex_ses 9 slow_reply_t (ex_cs (ex_reply [x41]))) = Some (RdOk [x41] true).
Proof. vm_compute. split; reflexivity. Qed.
