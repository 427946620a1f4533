(** C154-C159: what an attacker who controls the network can and cannot do. *)
From Verif Require Import Bytes Parser Crypto Wire Dolev SpecDolev DolevProofs DolevExamples.

(** C154: whoever controls the network, makes sessions of their own with any server
    and gets any signing key after the handshake (forward secrecy, draft section 9.5)
    has neither the secret of a trusted session nor the key derived from it. *)
Theorem C154_forward_secrecy : forall tr c i j s id, dy tr -> trusted tr c i j s id ->
  ~ know tr (dh i j) /\ ~ know tr (TKdf (dh i j)).
Proof. exact secret_safe. Qed.
Print Assumptions C154_forward_secrecy.
Example C154_example : dy dy_run /\ trusted dy_run 0 1 2 0 dy_id /\ know dy_run (TSignKey 0).
Proof. exact (conj dy_run_ok (conj dy_run_trusted dy_run_leaks)). Qed.

(** C155: when a client accepts a handshake, the server it called made that session,
    before, for the client's key and id; and no other client shares it. *)
Theorem C155_agreement : forall tr c i j s id, dy tr -> trusted tr c i j s id ->
  exists host, before tr (ESetup s host id i 0 j true) (EAccept c i j 0) /\
  forall c' i' s' id', trusted tr c' i' j s' id' -> c' = c /\ i' = i /\ s' = s /\ id' = id.
Proof. exact handshake_agrees. Qed.
Print Assumptions C155_agreement.
Example C155_example : dy dy_run /\ trusted dy_run 0 1 2 0 dy_id.
Proof. exact (conj dy_run_ok dy_run_trusted). Qed.

(** C156: a message that clients write only in trusted sessions, and that handlers
    return only to requests carrying a token which clients write only in trusted
    sessions and handlers do not return, stays secret; and so does the token. *)
Theorem C156_secrecy : forall tr x y, dy tr ->
  (forall c i j n m, In (EWrite c i j n m) tr -> m = TMsg x \/ m = TMsg y -> exists s id, trusted tr c i j s id) ->
  (forall s h id i j n m, ~ In (EHandle s h id i j n m (Some (TMsg y))) tr) ->
  (forall s h id i j n m, In (EHandle s h id i j n m (Some (TMsg x))) tr -> m = TMsg y) ->
  ~ know tr (TMsg y) /\ ~ know tr (TMsg x).
Proof. exact guarded_safe. Qed.
Print Assumptions C156_secrecy.
Example C156_example : dy dy_run /\
  (forall c i j n m, In (EWrite c i j n m) dy_run -> m = TMsg 6 \/ m = TMsg 5 -> exists s id, trusted dy_run c i j s id) /\
  (forall s h id i j n m, ~ In (EHandle s h id i j n m (Some (TMsg 5))) dy_run) /\
  (forall s h id i j n m, In (EHandle s h id i j n m (Some (TMsg 6))) dy_run -> m = TMsg 5).
Proof. exact dy_run_guarded. Qed.

(** C157: what a server's handler gets in the session of a trusted client, that client
    wrote before. *)
Theorem C157_requests_genuine : forall tr c i j s id, dy tr -> trusted tr c i j s id ->
  forall post pre s' h id' n m r, tr = post ++ EHandle s' h id' i j n m r :: pre ->
  s' = s /\ id' = id /\ In (EWrite c i j n m) pre.
Proof. exact request_genuine. Qed.
Print Assumptions C157_requests_genuine.
(** No counter is handled twice in a session, trusted or not. *)
Theorem C157_handled_once : forall tr p1 p2 s h id i j n m r, dy tr -> tr = p1 ++ EHandle s h id i j n m r :: p2 ->
  forall s' h' id' i' m' r', ~ In (EHandle s' h' id' i' j n m' r') (p1 ++ p2).
Proof. exact handled_once. Qed.
Print Assumptions C157_handled_once.
(** What the client reads, the server called by it returned for the message of that
    counter, after the client wrote it. *)
Theorem C157_answers_genuine : forall tr c i j s id, dy tr -> trusted tr c i j s id ->
  forall post pre n r, tr = post ++ ERead c i j n r :: pre ->
  exists h m, In (EHandle s h id i j n m (Some r)) pre /\ before pre (EWrite c i j n m) (EHandle s h id i j n m (Some r)).
Proof. exact answer_genuine. Qed.
Print Assumptions C157_answers_genuine.
Example C157_example : dy dy_run /\ trusted dy_run 0 1 2 0 dy_id /\
  In (EHandle 0 dy_h1 dy_id 1 2 0 (TMsg 5) (Some (TMsg 6))) dy_run /\ In (ERead 0 1 2 0 (TMsg 6)) dy_run.
Proof. exact dy_run_talks. Qed.

(** C158 is refuted: with the key a fetcher got from the attacker, as in the protocol's
    own key exchange, the attacker reads what the client writes and answers it; the
    server's key never leaked and no server saw a request. *)
Theorem C158_fetched_key_refuted : exists tr c i j w n x r id s k,
  dy tr /\ In (EDial c i id s k) tr /\ ~ In (ELeak s) tr /\ In (EAccept c i j w) tr /\
  In (EWrite c i j n (TMsg x)) tr /\ know tr (TMsg x) /\
  In (ERead c i j n r) tr /\ know tr r /\ (forall s' h id' i' j' n' m r', ~ In (EHandle s' h id' i' j' n' m r') tr).
Proof. exact fetched_key_refuted. Qed.
Print Assumptions C158_fetched_key_refuted.
(** With the right key, fetched from elsewhere, it holds. *)
Theorem C158_fetched_key_partial : forall tr x, dy tr ->
  (forall c i j n, In (EWrite c i j n (TMsg x)) tr -> exists s id, trusted tr c i j s id) ->
  (forall s h id i j n m, In (EHandle s h id i j n m (Some (TMsg x))) tr -> exists c s' id', trusted tr c i j s' id') ->
  ~ know tr (TMsg x).
Proof. exact message_safe. Qed.
Print Assumptions C158_fetched_key_partial.
Example C158_example : dy dy_run /\
  (forall c i j n, In (EWrite c i j n (TMsg 6)) dy_run -> exists s id, trusted dy_run c i j s id) /\
  (forall s h id i j n m, In (EHandle s h id i j n m (Some (TMsg 6))) dy_run -> exists c s' id', trusted dy_run c i j s' id').
Proof. exact dy_run_own. Qed.

(** C159: in a trusted session two ciphertexts with the same nonce are the same. *)
Theorem C159_nonce_once : forall tr c i j s id, dy tr -> trusted tr c i j s id -> forall n p1 p2,
  know tr (TAead (TKdf (dh i j)) n p1) -> know tr (TAead (TKdf (dh i j)) n p2) -> p1 = p2.
Proof. exact nonce_once. Qed.
Print Assumptions C159_nonce_once.
Example C159_example : dy dy_run /\ trusted dy_run 0 1 2 0 dy_id /\
  know dy_run (sealed dir_c2s 1 2 0 (TMsg 5)) /\ know dy_run (sealed dir_s2c 1 2 0 (TMsg 6)).
Proof. exact dy_run_seals. Qed.
