(** Properties of the server under any interleaving of requests and any network. *)
From Verif Require Import Bytes Parser Crypto Kdf Wire WireSeq Toy Replay Server ServerSeq SpecServer Conc SpecConc
  ConcProofs ConcThms ConcExamples ServerExamples.

(** C17. No two replies under one session use the same nonce; none uses a nonce
    of the client's direction; what is sealed is the handler's output. *)
Theorem C17_reply_nonces_unique C g n1 n2 i1 i2 p c1 c2 k1 k2 nonce1 nonce2 pt1 pt2 ct1 ct2 :
  reachable C g ->
  nth_error (g_trace g) n1 = Some (i1, EvSeal p c1 k1 nonce1 pt1 ct1) ->
  nth_error (g_trace g) n2 = Some (i2, EvSeal p c2 k2 nonce2 pt2 ct2) ->
  nonce1 = nonce2 -> n1 = n2.
Proof. exact (fun R => seal_once C g R n1 n2 i1 i2 p c1 c2 k1 k2 nonce1 nonce2 pt1 pt2 ct1 ct2). Qed.
Print Assumptions C17_reply_nonces_unique.

Theorem C17_direction C g i p c k nonce pt ct :
  reachable C g -> event g i (EvSeal p c k nonce pt ct) ->
  (forall c', nonce <> gcm_nonce dir_c2s c') /\
  exists sec, event g i (EvSecret p sec) /\ new_gcm C sec = Some k.
Proof. exact (fun R H => seal_direction C g R i p c k nonce pt ct H). Qed.
Print Assumptions C17_direction.

Example C17_example : reachable toy ex_g /\
  map (fun x => match snd x with EvSeal p c _ _ pt _ => Some (fst x, p, c, pt) | _ => None end)
      (filter (fun x => is_seal (snd x)) (g_trace ex_g)) =
  [Some (3%nat, 0%nat, 6, [x42; x43; x21]); Some (1%nat, 0%nat, 5, [x41; x21])].
Proof. split; [exact ex_g_reach|vm_compute; reflexivity]. Qed.

(** C27. Whichever session a request gets from the secret manager was set up from
    its own host with its own id, or two host/id pairs collide under SHA-256. *)
Theorem C27_isolation C g i p k :
  CryptoLaws C -> reachable C g -> event g i (EvLoad k (Some p)) ->
  exists j hi idi reply c ct hj idj pub sk sec,
    set_up C g p j hj idj pub sk sec /\
    host_of g i = Some hi /\ process_octets (request_of g i) reply idi c ct /\
    ((hj = hi /\ idj = idi) \/ collision C hj idj hi idi).
Proof. exact (fun L R H => isolation C g R L i p k H). Qed.
Print Assumptions C27_isolation.

(** A session has one creator, and nothing else is ever used. *)
Theorem C27_one_creator C g p j1 j2 s1 s2 :
  reachable C g -> event g j1 (EvNew p s1) -> event g j2 (EvNew p s2) -> j1 = j2 /\ s1 = s2.
Proof. exact (fun R => creator C g R p j1 j2 s1 s2). Qed.
Print Assumptions C27_one_creator.
Theorem C27_only_loaded C g i x p :
  reachable C g -> event g i x ->
  (exists s, x = EvSecret p s) \/ (exists c b, x = EvCheck p c b) \/ (exists c r m h, x = EvHandler p c r m h) \/
  (exists c k n pt ct, x = EvSeal p c k n pt ct) ->
  exists k, event g i (EvLoad k (Some p)).
Proof. exact (fun R => uses_loaded C g R i x p). Qed.
Print Assumptions C27_only_loaded.

Example C27_example :
  map (fun x => match snd x with EvLoad _ r => (fst x, r) | _ => (fst x, None) end)
    (filter (fun x => match snd x with EvLoad _ _ => true | _ => false end)
      (g_trace (request_step toy [x31] ex_g 4 (enc_request (ex_process 7 [x41] true))))) =
  [(4, None); (3, Some 0); (2, Some 0); (1, Some 0)]%nat.
Proof. vm_compute. reflexivity. Qed.

(** C29. What the handler gets is the decryption, under the key of a session set up
    from the same host and id, of the ciphertext in this very request. *)
Theorem C29_authentic C g i p c reply m r :
  CryptoLaws C -> reachable C g -> event g i (EvHandler p c reply m r) ->
  exists host id ct key sec j hj idj pub sk,
    host_of g i = Some host /\ process_octets (request_of g i) reply id c ct /\
    set_up C g p j hj idj pub sk sec /\
    ((hj = host /\ idj = id) \/ collision C hj idj host id) /\
    new_gcm C sec = Some key /\ ct = gcm_seal C key (gcm_nonce dir_c2s c) m.
Proof. exact (fun L R H => handler_spec C g R L i p c reply m r H). Qed.
Print Assumptions C29_authentic.

(** C30. One call per session and counter. *)
Theorem C30_at_most_once C g n1 n2 i1 i2 p c r1 r2 m1 m2 h1 h2 :
  reachable C g ->
  nth_error (g_trace g) n1 = Some (i1, EvHandler p c r1 m1 h1) ->
  nth_error (g_trace g) n2 = Some (i2, EvHandler p c r2 m2 h2) -> n1 = n2.
Proof. exact (fun R => handler_once C g R n1 n2 i1 i2 p c r1 r2 m1 m2 h1 h2). Qed.
Print Assumptions C30_at_most_once.

Example C30_example :
  map (fun x => match snd x with EvHandler p c r m _ => Some (fst x, p, c, m) | _ => None end)
      (filter (fun x => is_handler (snd x)) (g_trace ex_g)) =
  [Some (3%nat, 0%nat, 6, [x42; x43]); Some (1%nat, 0%nat, 5, [x41])].
Proof. vm_compute. reflexivity. Qed.

(** C69. The signing key is only ever applied to the transcript of a handshake the
    signing instance takes part in: the id and key it received, the key it drew. *)
Theorem C69_signs_only_own_handshakes C g i h m r :
  reachable C g -> event g i (EvSign h m r) -> h = SHA512 /\
  exists id pub sk, setup_octets C (request_of g i) id pub /\ event g i (EvGen (Some sk)) /\
    m = setup_transcript pub (x_pub C sk) id.
Proof. exact (fun R => sign_spec C g R i h m r). Qed.
Print Assumptions C69_signs_only_own_handshakes.
Example C69_example :
  map (fun x => match snd x with EvSign _ m _ => (fst x, m) | _ => (fst x, []) end)
    (filter (fun x => is_sign (snd x)) (g_trace ex_g)) =
  [(0%nat, setup_transcript (x_pub toy ex_csk) (x_pub toy ex_ssk) ex_id)].
Proof. vm_compute. reflexivity. Qed.

(** C70. Everything handed to a connection is a greeting, an error with one of the
    fixed texts, the public half of the handshake, the published key, or handler
    output encrypted under the session key. *)
Theorem C70_what_leaves_the_server C g i b n :
  reachable C g -> event g i (EvWrite b n) -> exists r, b = enc_response r /\
  match r with
  | RsHello => True
  | RsError c m => In (c, m) error_texts
  | RsSetup spub ht sig => exists id pub sk, setup_octets C (request_of g i) id pub /\
      event g i (EvGen (Some sk)) /\ spub = x_pub C sk /\ ht = 4 /\
      event g i (EvSign SHA512 (setup_transcript pub spub id) (KOk sig))
  | RsProcess c ct => exists p key pt m sec, ct = gcm_seal C key (gcm_nonce dir_s2c c) pt /\
      event g i (EvHandler p c true m (HOk pt)) /\ event g i (EvSecret p sec) /\ new_gcm C sec = Some key
  | RsFetchKey alg raw => exists pk, event g i (EvFetchKey (KOk (alg, pk))) /\ pkix_marshal C pk = Some raw
  end.
Proof. exact (fun R => write_spec C g R i b n). Qed.
Print Assumptions C70_what_leaves_the_server.
Example C70_example :
  map (fun x => (fst x, match snd x with EvWrite b _ => lenN b | _ => 0 end))
    (filter (fun x => match snd x with EvWrite _ _ => true | _ => false end) (g_trace ex_g)) =
  [(3%nat, 36); (2%nat, 59); (1%nat, 35); (0%nat, 55)].
Proof. vm_compute. reflexivity. Qed.
