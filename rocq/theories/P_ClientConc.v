(** Properties of clients under any interleaving of Reads and Writes and any
    network (C15, C48, C72), and what the network can do to one client or session
    (C71, C73-C76). *)
From Verif Require Import Bytes Parser Crypto Kdf Wire WireSeq Toy Replay SpecReplay Server ServerSeq SpecServer ServerProps ServerProps2 ServerProps4
  Keys Client ClientSeq SpecClient ClientProofs ClientProps2 ServerForge ServerExamples ClientExamples
  Conc SpecConc ClientConc SpecClientConc ClientConcProofs ClientConcThms ClientConcExamples.

(** C15. As long as the 64-bit counter of session [s] was not exhausted, no two
    messages of the session are sealed with the same nonce. *)
Theorem C15_client_nonces_unique C W k s n1 n2 i1 i2 c1 c2 k1 k2 nonce1 nonce2 pt1 pt2 ct1 ct2 :
  kreachable C W k -> adds s (k_trace k) <= 2 ^ 64 ->
  nth_error (k_trace k) n1 = Some (i1, KSeal s c1 k1 nonce1 pt1 ct1) ->
  nth_error (k_trace k) n2 = Some (i2, KSeal s c2 k2 nonce2 pt2 ct2) -> nonce1 = nonce2 -> n1 = n2.
Proof. exact (fun R => client_nonce_once C W k R s n1 n2 i1 i2 c1 c2 k1 k2 nonce1 nonce2 pt1 pt2 ct1 ct2). Qed.
Print Assumptions C15_client_nonces_unique.
(** All a client sends after the handshake are Process requests with its message
    sealed under the session's key, in the direction to the server. *)
Theorem C15_what_is_sent C W k i b n :
  kreachable C W k -> kevent k i (KWrite b n) -> exists cl p c key ct,
  started k i cl (OpWrite p) /\ let s := w_session W cl in
  client_gcm C (cs_secret (w_secret W s)) = Some key /\ c <> 0 /\ c < 2 ^ 64 /\
  kevent k i (KSeal s c key (x00 :: repeat x00 3 ++ be_enc 8 c) p ct) /\
  ct = gcm_seal C key (x00 :: repeat x00 3 ++ be_enc 8 c) p /\
  b = enc_request (RqProcess (cs_id (w_secret W s)) c ct (co_reply (w_opts W cl))).
Proof. exact (fun R => kwrite_spec C W k R i b n). Qed.
Print Assumptions C15_what_is_sent.
Example C15_example : kreachable toy ex_W ex_k1 /\ adds 0 (k_trace ex_k1) = 2 /\
  map (fun x => match snd x with KSeal s c _ _ pt _ => Some (fst x, s, c, pt) | _ => None end)
      (filter (fun x => is_kseal (snd x)) (k_trace ex_k1)) =
  [Some (1%nat, 0%nat, 1, [x42]); Some (0%nat, 0%nat, 2, [x41])].
Proof. split; [exact ex_k1_reach|]. vm_compute. auto. Qed.

(** C48. What a Read returns is a stretch of replies that Reads on the same client
    accepted, each for the counter last sent on it. *)
Theorem C48_reads_replies C W k i cl n data eof :
  kreachable C W k -> started k i cl (OpRead n) -> finished k i (inl (RdOk data eof)) ->
  lenN data <= n /\ exists pre post ms, concat ms = pre ++ data ++ post /\
    Forall (fun m => exists c ct, accepted C W k cl c ct m) ms.
Proof. exact (fun R => read_from_replies C W k R i cl n data eof). Qed.
Print Assumptions C48_reads_replies.
(** Such a reply, if a server sealed it (else the ciphertext is a forgery), is the
    handler's answer to a request with that counter; and if a client of the
    session sealed that request (else it is a forgery), it is the message written
    on that very client. *)
Theorem C48_reply_is_own C W k cl c ct m g :
  kreachable C W k -> CryptoLaws C -> reachable C g -> accepted C W k cl c ct m ->
  distinct_keys C W k -> adds (w_session W cl) (k_trace k) <= 2 ^ 64 ->
  exists key, client_gcm C (cs_secret (w_secret W (w_session W cl))) = Some key /\
    ct = gcm_seal C key (x01 :: repeat x00 3 ++ be_enc 8 c) m /\
    forall i p c' m', event g i (EvSeal p c' key (x01 :: repeat x00 3 ++ be_enc 8 c) m' ct) ->
      c' = c /\ m' = m /\ exists req, event g i (EvHandler p c true req (HOk m)) /\
      forall j s c'' ct', kevent k j (KSeal s c'' key (x00 :: repeat x00 3 ++ be_enc 8 c) req ct') ->
        s = w_session W cl /\ c'' = c /\ wrote k cl c req.
Proof. exact (fun R L G A => reply_origin C W k R cl c ct m L g G A). Qed.
Print Assumptions C48_reply_is_own.
Example C48_example : kreachable toy ex_W ex_k2 /\ distinct_keys toy ex_W ex_k2 /\
  option_map o_prog (k_inst ex_k2 2) = Some (CRet (inl (RdOk [x41; x21] true))) /\
  accepted toy ex_W ex_k2 0 2 (gcm_seal toy ex_ckey (gcm_nonce dir_s2c 2) [x41; x21]) [x41; x21] /\
  wrote ex_k2 0 2 [x41].
Proof. exact ex_k2_facts. Qed.

(** C71 is refuted: what is left in the buffer is returned by the Read after the
    next Write. *)
Theorem C71_read_answers_last_write_refuted : forall C, CryptoLaws C -> forall E o ses p n s,
  c_works E -> c_buf s <> [] ->
  let '(w, s1) := crun C E (client_write C o ses p) s in
  fst (crun C E (client_read C o ses n) s1) = Some (RdOk (takeN n (c_buf s)) (lenN (c_buf s) <=? n)).
Proof. exact leftover_after_write. Qed.
Print Assumptions C71_read_answers_last_write_refuted.
Example C71_example :
  let s := snd (crun toy ex_CE (client_read toy ex_opts ex_ses 2) (ex_cs (ex_reply [x01; x02; x03]))) in
  c_buf s = [x03] /\
  fst (crun toy ex_CE (client_read toy ex_opts ex_ses 9) (snd (crun toy ex_CE (client_write toy ex_opts ex_ses [x41]) s))) =
  Some (RdOk [x03] true).
Proof. vm_compute. auto. Qed.

(** C72. No Read or Write panics, whatever the network does. *)
Theorem C72_read_write_never_panic C W k i v :
  kreachable C W k -> k_inst k i = Some v -> o_prog v <> CPanic.
Proof. exact (fun R => no_panic C W k R i v). Qed.
Print Assumptions C72_read_write_never_panic.
Example C72_example : exists v, k_inst ex_k2 2 = Some v /\ o_client v = 0%nat.
Proof. eexists. vm_compute. auto. Qed.

(** C73 is refuted: any octets shaped like an error response are reported as the
    server's error. *)
Theorem C73_errors_are_the_servers_refuted : forall C, CryptoLaws C -> forall E o ses n s code msg rest,
  c_works E -> c_buf s = [] -> response_ok (RsError code msg) ->
  c_in s = enc_response (RsError code msg) ++ rest ->
  fst (crun C E (client_read C o ses n) s) = Some (RdErr (RdRemote code msg)).
Proof. exact any_error. Qed.
Print Assumptions C73_errors_are_the_servers_refuted.
Example C73_example : response_ok (RsError 77 [x41]) /\
  fst (crun toy ex_CE (client_read toy ex_opts ex_ses 9) (ex_cs (enc_response (RsError 77 [x41])))) =
  Some (RdErr (RdRemote 77 [x41])).
Proof. split; [split; reflexivity|vm_compute; reflexivity]. Qed.

(** C74 is refuted: the ciphertext of a request that asks for a reply is accepted
    just as well in a request that does not; the handler is told so and the reply
    is lost. *)
Theorem C74_reply_flag_authenticated_refuted : forall C E s host id msg rest ctr,
  request_ok (RqProcess id ctr msg false) ->
  s_in s = enc_request (RqProcess id ctr msg false) ++ rest ->
  e_quit E (s_step s) = false -> e_host E = Some host ->
  forall ses hist, known C s host id = Some ses ->
  Forall (fun c => c < 2 ^ 64) hist -> snd (checks new_window hist) = ses_win ses ->
  wf s -> ~ refused_after hist ctr ->
  forall key, new_gcm C (ses_secret ses) = Some key ->
  forall pt, gcm_open C key (x00 :: repeat x00 3 ++ be_enc 8 ctr) msg = Some pt ->
  let '(res, s') := srun C E (conn_body C) s in
  (exists p, s_calls s' = s_calls s ++ [(p, ctr, false, pt)]) /\
  ((forall i, exists out, e_handler E i false pt = HOk out) -> silent s s').
Proof. exact flag_not_authenticated. Qed.
Print Assumptions C74_reply_flag_authenticated_refuted.
Example C74_example :
  let flip r := match r with RqProcess id c m f => RqProcess id c m (negb f) | _ => r end in
  let s := ex_s [] in
  let s' := snd (srun toy ex_E (conn_body toy) (set_in s (enc_request (flip (ex_process 5 [x41] true))))) in
  deliveries s s' = [(5, false, [x41])] /\ s_sent s' = s_sent s.
Proof. vm_compute. auto. Qed.

(** C75 is refuted: once one reply was left unread, every later exchange of one
    Write and one Read fails, although every reply arrives in time. *)
Theorem C75_late_reply_harmless_refuted : forall C, CryptoLaws C -> forall E o ses n f ct, c_works E ->
  (forall c, c < 2 ^ 64 -> process_response_octets (f c) c (ct c)) ->
  forall ps s, c_buf s = [] -> c_in s = f (c_last s) -> c_ctr s = c_last s -> c_last s + lenN ps < 2 ^ 64 ->
  exchanges C E o ses n f ps s = map (fun _ => Some (RdErr RdCounter)) ps.
Proof. exact late_reply. Qed.
Print Assumptions C75_late_reply_harmless_refuted.
Example C75_example :
  let f c := enc_response (RsProcess c (gcm_seal toy ex_ckey (gcm_nonce dir_s2c c) [x41])) in
  exchanges toy ex_CE ex_opts ex_ses 9 f [[x01]; [x02]; [x03]] (cst0 []) =
    [Some (RdOk [x41] true); Some (RdOk [x41] true); Some (RdOk [x41] true)] /\
  exchanges toy ex_CE ex_opts ex_ses 9 f [[x01]; [x02]; [x03]] (ex_cs (f 1)) =
    [Some (RdErr RdCounter); Some (RdErr RdCounter); Some (RdErr RdCounter)].
Proof. vm_compute. auto. Qed.

(** C76 is refuted: a Setup for an id in use, by whoever can reach the server from
    the same host, replaces the session; what the owner sends next is not
    delivered unless it happens to decrypt under the new secret. *)
Theorem C76_session_not_replaceable_refuted : forall C, CryptoLaws C -> forall E s host id pub, wf s -> e_host E = Some host ->
  (forall i, e_quit E i = false) -> (forall i, e_store E i = true) ->
  (forall i, exists sk, e_gen E i = Some sk /\ x_dh C sk pub <> None) ->
  request_ok (RqSetup id pub) ->
  let s1 := snd (srun C E (conn_body C) (set_in s (enc_request (RqSetup id pub)))) in
  exists i sk secret, e_gen E i = Some sk /\ x_dh C sk pub = Some secret /\
    known C s1 host id = Some {| ses_secret := secret; ses_win := new_window |} /\
    forall key c msg reply, new_gcm C secret = Some key -> request_ok (RqProcess id c msg reply) -> c <> 0 ->
    gcm_open C key (x00 :: repeat x00 3 ++ be_enc 8 c) msg = None ->
    let '(_, s2) := srun C E (conn_body C) (set_in s1 (enc_request (RqProcess id c msg reply))) in
    no_calls s1 s2 /\ exists t, responded s1 s2 (RsError 2 t).
Proof. exact setup_replaces. Qed.
Print Assumptions C76_session_not_replaceable_refuted.
(** The owner's message is delivered before the replacement and lost after it. *)
Example C76_example :
  let s := ex_s [] in
  let go s r := snd (srun toy ex_E (conn_body toy) (set_in s (enc_request r))) in
  let s1 := go s (RqSetup ex_id (x_pub toy [x01; x02])) in
  let r := ex_process 1 [x41] true in
  deliveries s (go s r) = [(1, true, [x41])] /\ deliveries s1 (go s1 r) = [].
Proof. vm_compute. auto. Qed.
