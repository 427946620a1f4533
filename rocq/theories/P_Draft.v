(** Properties C101-C105, C107, C108: what the published draft demands of the
    exchange beyond its layout; and the registries (C13). *)
From Coq Require Import Sorting.Sorted.
From Verif Require Import Bytes Parser Crypto Kdf Wire WireSeq Toy Replay SpecReplay Server ServerSeq SpecServer ServerProps ServerProps2
  ServerProps3 ServerExamples Keys Client ClientSeq SpecClient ClientProofs SpecE2E ClientExamples ClientConc SpecClientConc
  ClientConcExamples Usage SpecUsage DraftProofs DraftProofs2 DraftProofs3 DraftProofs4.

(** C13. The draft's tables of actions, error codes, hash types (both ways) and
    key algorithms. *)
Theorem C13_published_codes :
  (version1, action_hello, action_setup, action_process, action_fetch_key) = (1, 1, 2, 3, 4) /\
  (code_malformed, code_server_error, code_unknown_client, code_unsupported_version, code_replay) = (1, 2, 3, 4, 5) /\
  (forall h, new_hash_type h = match h with SHA256 => Some 2 | SHA384 => Some 3 | SHA512 => Some 4 | HOther _ => None end) /\
  (forall t h, crypto_hash t = Some h <-> new_hash_type h = Some t) /\
  (forall C sk alg pk, fetch_key C sk = KOk (alg, pk) ->
     match pk with PkRSA _ _ => alg = 1 | PkECDSA _ _ _ => alg = 2 | PkEd25519 _ => alg = 3 | _ => False end).
Proof. exact published_codes. Qed.
Print Assumptions C13_published_codes.

(** C101. Receivers ignore the reserved bits: of a Process request (all that the
    server does and answers is the same), *)
Theorem C101_request_flags : forall C E s b1 b2 i, e_quit E (s_step s) = false -> b2n b1 / 128 = b2n b2 / 128 ->
  srun C E (conn_body C) (set_in s (x13 :: b1 :: i)) = srun C E (conn_body C) (set_in s (x13 :: b2 :: i)).
Proof. exact reserved_flags. Qed.
Print Assumptions C101_request_flags.
(** and of responses, for Read, the handshake and the fetcher. *)
Theorem C101_response_read : forall C E o ses n s b1 b2 i, c_works E -> c_buf s = [] -> b2n b1 / 128 = b2n b2 / 128 ->
  crun C E (client_read C o ses n) (c_set_in s (b1 :: i)) = crun C E (client_read C o ses n) (c_set_in s (b2 :: i)).
Proof. exact reserved_read. Qed.
Print Assumptions C101_response_read.
Theorem C101_response_handshake : forall C E host s b1 b2 i, b2n b1 / 128 = b2n b2 / 128 ->
  fst (crun C E (handshake C host) (c_set_in s (b1 :: i))) = fst (crun C E (handshake C host) (c_set_in s (b2 :: i))).
Proof. exact reserved_handshake. Qed.
Print Assumptions C101_response_handshake.
Theorem C101_response_fetch : forall C E s b1 b2 i, b2n b1 / 128 = b2n b2 / 128 ->
  fst (crun C E (fetch_protocol C) (c_set_in s (b1 :: i))) = fst (crun C E (fetch_protocol C) (c_set_in s (b2 :: i))).
Proof. exact reserved_fetch. Qed.
Print Assumptions C101_response_fetch.
(** A server sends them as zero, whatever it receives. *)
Theorem C101_server_sends_zero : forall C E fuel s, exists l, s_sent (snd (serve C E fuel s)) = s_sent s ++ l /\
  Forall (fun x => hd_error (fst x) = Some x80 \/ hd_error (fst x) = Some x00) l.
Proof. exact serve_reserved. Qed.
Print Assumptions C101_server_sends_zero.
Example C101_example :
  let q := enc_request (ex_process 1 [x41] true) in
  q = x13 :: x80 :: skipn 2 q /\ b2n x80 / 128 = b2n xff / 128 /\ b2n x80 / 128 <> b2n x7f / 128 /\
  map snd (s_calls (snd (srun toy ex_E (conn_body toy) (ex_s (x13 :: xff :: skipn 2 q))))) = [[x41]] /\
  map (fun x => hd_error (fst x)) (s_sent (snd (serve toy ex_E 2 (ex_s (q ++ q))))) = [Some x80; Some x80; Some x00] /\
  fst (crun toy ex_CE (client_read toy ex_opts ex_ses 9) (ex_cs (xaa :: skipn 1 (ex_reply [x41])))) = Some (RdOk [x41] true).
Proof. vm_compute. repeat split; discriminate. Qed.

(** C102. The session of a handshake works on any other connections of the same
    host, one exchange on each ([hops]). *)
Theorem C102_reuse : forall C, CryptoLaws C -> forall CE SE chost host csk rnd ssk, undisturbed C CE SE chost host csk rnd ssk ->
  forall cs ss o n (f : bytes -> bytes) l, wf ss -> co_reply o = true -> lenN l < 2 ^ 64 ->
  Forall (fun x => let '(CE', SE', p) := x in c_works CE' /\ writes_all SE' /\ (forall i, e_quit SE' i = false) /\
    e_host SE' = Some chost /\ lenN p + 16 <= 2 ^ 30 /\
    forall i, e_handler SE' i true p = HOk (f p) /\ f p <> [] /\ lenN (f p) + 16 <= 2 ^ 30 /\ lenN (f p) <= n) l ->
  let '(_, ss') := srun C SE (conn_body C) (set_in ss (enc_request (RqSetup (uuid_of rnd) (x_pub C csk)))) in
  exists ses, fst (crun C CE (handshake C (Some host)) (c_set_in cs (sent_by_server ss ss'))) = Some (inr ses) /\
    fst (hops C o ses n l 0 ss') = map (fun x => Some (RdOk (f (snd x)) true)) l /\
    map snd (s_calls (snd (hops C o ses n l 0 ss'))) = map snd (s_calls ss') ++ map snd l.
Proof. exact reuse. Qed.
Print Assumptions C102_reuse.
Example C102_example :
  undisturbed toy ex_CE ex_SE ex_host ex_name ex_csk ex_rnd ex_sign_key /\
  fst (hops toy ex_opts ex_ses 100 [(ex_CE, ex_SE, [x41]); (ex_CE, ex_SE, [x42])] 0 ex_ss) =
  [Some (RdOk [x41; x21] true); Some (RdOk [x42; x21] true)].
Proof. split; [exact ex_undisturbed|vm_compute; reflexivity]. Qed.

(** C103. The counters that one client's successive Writes put on the wire are
    strictly increasing, whatever becomes of the Writes, *)
Theorem C103_counters_increase_partial : forall C, CryptoLaws C -> forall E o ses ps s, c_ctr s + lenN ps < 2 ^ 64 ->
  let '(_, s') := writes C E o ses ps s in
  exists l, c_ctr s <= c_ctr s' <= c_ctr s + lenN ps /\
    map fst (c_sent s') = map fst (c_sent s) ++ map (fun x => enc_request (RqProcess (cs_id ses) (fst x) (snd x) (co_reply o))) l /\
    StronglySorted N.lt (map fst l) /\ Forall (fun c => c_ctr s < c <= c_ctr s') (map fst l).
Proof. exact writes_increase. Qed.
Print Assumptions C103_counters_increase_partial.
(** but not those of clients that share a session: the first request may be
    handed to the network after any number of later ones. *)
Theorem C103_counters_increase_refuted : forall C W cl1 cl2 p1 p2 key n, w_session W cl1 = w_session W cl2 ->
  client_gcm C (cs_secret (w_secret W (w_session W cl1))) = Some key -> N.of_nat n + 1 < 2 ^ 64 ->
  let q cl p c := enc_request (RqProcess (cs_id (w_secret W (w_session W cl))) c
    (gcm_seal C key (x00 :: repeat x00 3 ++ be_enc 8 c) p) (co_reply (w_opts W cl))) in
  exists k, kreachable C W k /\ handed k = map (q cl2 p2) (from 2 n) ++ [q cl1 p1 1].
Proof. exact overtaken. Qed.
Print Assumptions C103_counters_increase_refuted.
Example C103_example :
  client_gcm toy (cs_secret (w_secret ex_W (w_session ex_W 0))) = Some ex_ckey /\ from 2 3 = [2; 3; 4] /\
  map (fun x => firstn 8 (skipn 18 (fst x))) (c_sent (snd (writes toy ex_CE ex_opts ex_ses [[x41]; []; [x42]] (cst0 [])))) =
  [be_enc 8 1; be_enc 8 2; be_enc 8 3].
Proof. vm_compute. auto. Qed.

(** C104. Refuted: not every request of clients sharing a session is accepted, even
    if none is lost: one overtaken by 64 or more others is refused. *)
Theorem C104_pool_requests_accepted_refuted : forall C W cl1 cl2 p1 p2 key n, w_session W cl1 = w_session W cl2 ->
  client_gcm C (cs_secret (w_secret W (w_session W cl1))) = Some key -> (64 <= n)%nat -> N.of_nat n + 2 < 2 ^ 64 ->
  let q cl p c := enc_request (RqProcess (cs_id (w_secret W (w_session W cl))) c
    (gcm_seal C key (x00 :: repeat x00 3 ++ be_enc 8 c) p) (co_reply (w_opts W cl))) in
  exists k, kreachable C W k /\ handed k = map (q cl2 p2) (from 2 n) ++ [q cl1 p1 1] /\
    fst (checks new_window (from 2 n ++ [1])) = repeat true n ++ [false].
Proof. exact overtaken_and_refused. Qed.
Print Assumptions C104_pool_requests_accepted_refuted.
Example C104_example :
  fst (checks new_window (from 2 64 ++ [1])) = repeat true 64 ++ [false] /\
  fst (checks new_window (from 2 63 ++ [1])) = repeat true 64.
Proof. vm_compute. auto. Qed.

(** C105. Refuted: a request that does not decrypt is answered "server error" (2),
    not "malformed request" (1). *)
Theorem C105_decryption_failure_code_refuted : forall C E s host id msg rest ctr reply,
  request_ok (RqProcess id ctr msg reply) ->
  s_in s = enc_request (RqProcess id ctr msg reply) ++ rest ->
  e_quit E (s_step s) = false -> e_host E = Some host ->
  forall ses hist, known C s host id = Some ses ->
  Forall (fun c => c < 2 ^ 64) hist -> snd (checks new_window hist) = ses_win ses ->
  wf s -> ~ refused_after hist ctr ->
  forall key, new_gcm C (ses_secret ses) = Some key ->
  gcm_open C key (x00 :: repeat x00 3 ++ be_enc 8 ctr) msg = None ->
  let '(_, s') := srun C E (conn_body C) s in
  (exists t, responded s s' (RsError 2 t)) /\ forall t, ~ responded s s' (RsError 1 t).
Proof. exact unauthentic_code. Qed.
Print Assumptions C105_decryption_failure_code_refuted.
Example C105_example :
  new_gcm toy ex_secret = Some ex_key /\ gcm_open toy ex_key (x00 :: repeat x00 3 ++ be_enc 8 1) [x41] = None /\
  let s := ex_s (enc_request (RqProcess ex_id 1 [x41] true)) in
  firstn 5 (fst (last (s_sent (snd (srun toy ex_E (conn_body toy) s))) ([], 0))) = [x00; x00; x00; x00; x02].
Proof. vm_compute. auto. Qed.

(** C107. Refuted: a request that asks for no answer is answered all the same if its
    session is unknown, its counter refused, it does not decrypt or the handler
    fails; *)
Theorem C107_unasked_answers_refuted : forall C E s host id msg rest ctr,
  request_ok (RqProcess id ctr msg false) ->
  s_in s = enc_request (RqProcess id ctr msg false) ++ rest ->
  e_quit E (s_step s) = false -> e_host E = Some host ->
  (known C s host id = None ->
     exists t, responded s (snd (srun C E (conn_body C) s)) (RsError 3 t)) /\
  (forall ses hist, known C s host id = Some ses ->
     Forall (fun c => c < 2 ^ 64) hist -> snd (checks new_window hist) = ses_win ses ->
     (refused_after hist ctr -> exists t, responded s (snd (srun C E (conn_body C) s)) (RsError 5 t)) /\
     (wf s -> ~ refused_after hist ctr -> forall key, new_gcm C (ses_secret ses) = Some key ->
      (gcm_open C key (x00 :: repeat x00 3 ++ be_enc 8 ctr) msg = None ->
       exists t, responded s (snd (srun C E (conn_body C) s)) (RsError 2 t)) /\
      (forall pt, gcm_open C key (x00 :: repeat x00 3 ++ be_enc 8 ctr) msg = Some pt ->
       (forall i, e_handler E i false pt = HErr) ->
       exists t, responded s (snd (srun C E (conn_body C) s)) (RsError 2 t)))).
Proof. exact unasked_answers. Qed.
Print Assumptions C107_unasked_answers_refuted.
(** in all other cases it is processed in silence. *)
Theorem C107_unasked_silent_partial : forall C E s host id msg rest ctr,
  request_ok (RqProcess id ctr msg false) ->
  s_in s = enc_request (RqProcess id ctr msg false) ++ rest ->
  e_quit E (s_step s) = false -> e_host E = Some host ->
  forall ses hist, known C s host id = Some ses ->
  Forall (fun c => c < 2 ^ 64) hist -> snd (checks new_window hist) = ses_win ses ->
  wf s -> ~ refused_after hist ctr ->
  forall key, new_gcm C (ses_secret ses) = Some key ->
  forall pt, gcm_open C key (x00 :: repeat x00 3 ++ be_enc 8 ctr) msg = Some pt ->
  (forall i, e_handler E i false pt <> HErr) ->
  let '(_, s') := srun C E (conn_body C) s in
  silent s s' /\ exists p, s_calls s' = s_calls s ++ [(p, ctr, false, pt)].
Proof. exact unasked_silent. Qed.
Print Assumptions C107_unasked_silent_partial.
Example C107_example :
  let sent q := length (s_sent (snd (srun toy ex_E (conn_body toy) (ex_s (enc_request q))))) in
  length (s_sent (ex_s [])) = 1%nat /\ sent (RqProcess (repeat x08 16) 1 [] false) = 2%nat /\
  sent (RqProcess ex_id 0 [] false) = 2%nat /\ sent (RqProcess ex_id 1 [] false) = 2%nat /\
  sent (ex_process 1 [x41] false) = 1%nat.
Proof. vm_compute. auto. Qed.

(** C108. Refuted: one host sets up as many sessions as it likes, and the server
    keeps them all. *)
Theorem C108_sessions_bounded_refuted : forall C, CryptoLaws C -> forall E host pub ids s,
  e_host E = Some host -> (forall i, e_quit E i = false) -> length pub = 32%nat ->
  (forall i, exists sk, e_gen E i = Some sk /\ x_dh C sk pub <> None) ->
  (forall i, e_store E i = true) -> (forall i h m, exists sig, e_sign E i h m = KOk sig) -> writes_all E ->
  wf s -> Forall (fun id => length id = 16%nat) ids ->
  (forall i j, In i ids -> In j ids -> ~ collision C host i host j) ->
  let '(r, s') := one_by_one C E (map (fun id => RqSetup id pub) ids) s in
  r = Some true /\ forall id, In id ids -> known C s' host id <> None.
Proof. exact any_number_of_sessions. Qed.
Print Assumptions C108_sessions_bounded_refuted.
Example C108_example :
  let ids := [repeat x01 16; repeat x02 16; repeat x03 16] in
  (forall i j, In i ids -> In j ids -> ~ collision toy ex_host i ex_host j) /\
  let s' := snd (one_by_one toy ex_E (map (fun id => RqSetup id (x_pub toy ex_csk)) ids) (sst0 [])) in
  forallb (fun id => match known toy s' ex_host id with Some _ => true | None => false end) ids = true.
Proof. split; [|vm_compute; reflexivity]. cbn [In]. intros i j Hi Hj [N1 N2]. revert N1 N2. intuition subst; vm_compute in *; intuition congruence. Qed.
