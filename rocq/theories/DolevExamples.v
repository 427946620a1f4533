(** Runs of [Dolev]. *)
From Verif Require Import Bytes BytesProofs Parser Crypto Wire WireExtra Dolev SpecDolev DolevProofs.

Ltac no_in := let H := fresh in intros; intros H; cbn in H; intuition discriminate.
Ltac made := let H := fresh in let X := fresh in let e := fresh in
  intros e H X; cbn in H; intuition (subst; cbn in X; lia).
Ltac is_in := cbn; tauto.

(** Client 0 talks to server 0 while the attacker has a session of their own there;
    the server's key leaks after the handshake. *)
Definition dy_id : bytes := [x01].
Definition dy_h1 : bytes := [x0a].
Definition dy_h2 : bytes := [x0b].
Definition dy_setups : list event :=
  [ESetup 0 dy_h2 dy_id 9 0 3 true; ESetup 0 dy_h1 dy_id 1 0 2 true; EDial 0 1 dy_id 0 0; EAtt 9].
Definition dy_run : list event :=
  [EHandle 0 dy_h2 dy_id 9 3 0 (TData []) (Some (TData [x2a]));
   ERead 0 1 2 0 (TMsg 6);
   EHandle 0 dy_h1 dy_id 1 2 0 (TMsg 5) (Some (TMsg 6));
   EWrite 0 1 2 0 (TMsg 5);
   ELeak 0;
   EAccept 0 1 2 0] ++ dy_setups.

Lemma dy_setups_ok : dy dy_setups.
Proof.
  unfold dy_setups. apply dy_setup; [apply dy_setup; [apply dy_dial; [apply dy_att; [apply dy_nil|]| |]| |]| |].
  - made.
  - made.
  - no_in.
  - made.
  - apply (k_shown _ (EDial 0 1 dy_id 0 0)); is_in.
  - made.
  - apply k_point, (k_shown _ (EAtt 9)); is_in.
Qed.
Lemma dy_run_ok : dy dy_run.
Proof.
  unfold dy_run, app.
  eapply (dy_handle _ 0 dy_h2 dy_id 9 0 3 true).
  - eapply (dy_read _ 0 1 2 0 (TMsg 5)).
    + eapply (dy_handle _ 0 dy_h1 dy_id 1 0 2 true).
      * eapply (dy_write _ 0 1 2 0).
        -- apply dy_leak. eapply (dy_accept _ 0 1 dy_id 0 0).
           ++ exact dy_setups_ok.
           ++ is_in.
           ++ no_in.
           ++ apply (k_shown _ (ESetup 0 dy_h1 dy_id 1 0 2 true)); is_in.
           ++ apply (k_shown _ (ESetup 0 dy_h1 dy_id 1 0 2 true)); is_in.
        -- is_in.
        -- reflexivity.
        -- left. exists 5%nat. reflexivity.
        -- no_in.
      * is_in.
      * reflexivity.
      * no_in.
      * apply (k_shown _ (EWrite 0 1 2 0 (TMsg 5))); is_in.
      * intros t [= <-]. left. exists 6%nat. reflexivity.
    + is_in.
    + apply (k_shown _ (EHandle 0 dy_h1 dy_id 1 2 0 (TMsg 5) (Some (TMsg 6)))); is_in.
  - is_in.
  - reflexivity.
  - no_in.
  - unfold sealed. apply k_seal; [|apply k_data|apply k_data].
    apply k_kdf, (k_dh _ 9 3 0).
    + apply (k_shown _ (EAtt 9)); is_in.
    + apply (k_shown _ (ESetup 0 dy_h2 dy_id 9 0 3 true)); is_in.
  - intros t [= <-]. right. apply k_data.
Qed.
Lemma dy_run_trusted : trusted dy_run 0 1 2 0 dy_id.
Proof.
  exists [EHandle 0 dy_h2 dy_id 9 3 0 (TData []) (Some (TData [x2a])); ERead 0 1 2 0 (TMsg 6);
    EHandle 0 dy_h1 dy_id 1 2 0 (TMsg 5) (Some (TMsg 6)); EWrite 0 1 2 0 (TMsg 5); ELeak 0], 0%nat, dy_setups.
  split; [reflexivity|]. split; [is_in|no_in].
Qed.
Lemma dy_run_leaks : know dy_run (TSignKey 0).
Proof. apply (k_shown _ (ELeak 0)); is_in. Qed.
Lemma dy_run_guarded : dy dy_run /\
  (forall c i j n m, In (EWrite c i j n m) dy_run -> m = TMsg 6 \/ m = TMsg 5 -> exists s id, trusted dy_run c i j s id) /\
  (forall s h id i j n m, ~ In (EHandle s h id i j n m (Some (TMsg 5))) dy_run) /\
  (forall s h id i j n m, In (EHandle s h id i j n m (Some (TMsg 6))) dy_run -> m = TMsg 5).
Proof.
  split; [exact dy_run_ok|]. split; [|split].
  - intros c i j n m H _. exists 0%nat, dy_id. cbn in H.
    repeat (destruct H as [H|H]; [try discriminate H|]); [|destruct H].
    injection H as <- <- <- _ _. exact dy_run_trusted.
  - no_in.
  - intros s h id i j n m H. cbn in H.
    repeat (destruct H as [H|H]; [try discriminate H|]); [|destruct H]. congruence.
Qed.

(** The attacker answers the client's fetcher with key 7, which is theirs. *)
Definition mitm_run : list event :=
  [ERead 0 1 9 0 (TData [x2a]); EWrite 0 1 9 0 (TMsg 5); EAccept 0 1 9 0; EDial 0 1 dy_id 0 7; ELeak 7; EAtt 9].
Lemma mitm_key tr : In (EAtt 9) tr -> In (EDial 0 1 dy_id 0 7) tr -> know tr (TKdf (dh 1 9)).
Proof.
  intros H1 H2. rewrite dh_comm. apply k_kdf, (k_dh _ 9 1 0).
  - apply (k_shown _ (EAtt 9)); [exact H1|is_in].
  - apply (k_shown _ (EDial 0 1 dy_id 0 7)); [exact H2|is_in].
Qed.
Lemma mitm_ok : dy mitm_run.
Proof.
  unfold mitm_run. eapply (dy_read _ 0 1 9 0 (TMsg 5)).
  - eapply (dy_write _ 0 1 9 0).
    + eapply (dy_accept _ 0 1 dy_id 0 7).
      * apply dy_dial; [apply dy_leak, dy_att; [apply dy_nil|]| |].
        -- made.
        -- made.
        -- no_in.
      * is_in.
      * no_in.
      * apply k_point, (k_shown _ (EAtt 9)); is_in.
      * apply k_sign; [apply (k_shown _ (ELeak 7)); is_in|].
        unfold transcript. apply k_pair; [apply (k_shown _ (EDial 0 1 dy_id 0 7)); is_in|].
        apply k_pair; [apply k_point, (k_shown _ (EAtt 9)); is_in|apply k_data].
    + is_in.
    + reflexivity.
    + left. exists 5%nat. reflexivity.
    + no_in.
  - is_in.
  - unfold sealed. apply k_seal; [|apply k_data|apply k_data]. apply mitm_key; is_in.
Qed.
Lemma mitm_reads : know mitm_run (TMsg 5).
Proof.
  apply (k_open _ (TKdf (dh 1 9)) (TData (gcm_nonce dir_c2s 0)));
    [apply (k_shown _ (EWrite 0 1 9 0 (TMsg 5))); is_in|apply mitm_key; is_in].
Qed.
Lemma fetched_key_refuted : exists tr c i j w n x r id s k,
  dy tr /\ In (EDial c i id s k) tr /\ ~ In (ELeak s) tr /\ In (EAccept c i j w) tr /\
  In (EWrite c i j n (TMsg x)) tr /\ know tr (TMsg x) /\
  In (ERead c i j n r) tr /\ know tr r /\ (forall s' h id' i' j' n' m r', ~ In (EHandle s' h id' i' j' n' m r') tr).
Proof.
  exists mitm_run, 0%nat, 1%nat, 9%nat, 0%nat, 0, 5%nat, (TData [x2a]), dy_id, 0%nat, 7%nat.
  split; [exact mitm_ok|]. split; [is_in|]. split; [no_in|]. split; [is_in|]. split; [is_in|].
  split; [exact mitm_reads|]. split; [is_in|]. split; [apply k_data|no_in].
Qed.
Lemma dy_run_talks : dy dy_run /\ trusted dy_run 0 1 2 0 dy_id /\
  In (EHandle 0 dy_h1 dy_id 1 2 0 (TMsg 5) (Some (TMsg 6))) dy_run /\ In (ERead 0 1 2 0 (TMsg 6)) dy_run.
Proof. split; [exact dy_run_ok|]. split; [exact dy_run_trusted|]. split; is_in. Qed.
Lemma dy_run_own : dy dy_run /\
  (forall c i j n, In (EWrite c i j n (TMsg 6)) dy_run -> exists s id, trusted dy_run c i j s id) /\
  (forall s h id i j n m, In (EHandle s h id i j n m (Some (TMsg 6))) dy_run -> exists c s' id', trusted dy_run c i j s' id').
Proof.
  split; [exact dy_run_ok|]. split.
  - intros c i j n H. apply dy_run_guarded in H; auto.
  - intros s h id i j n m H. exists 0%nat, 0%nat, dy_id. cbn in H.
    repeat (destruct H as [H|H]; [try discriminate H|]); [|destruct H].
    injection H as _ _ _ <- <- _ _. exact dy_run_trusted.
Qed.
Lemma dy_run_seals : dy dy_run /\ trusted dy_run 0 1 2 0 dy_id /\
  know dy_run (sealed dir_c2s 1 2 0 (TMsg 5)) /\ know dy_run (sealed dir_s2c 1 2 0 (TMsg 6)).
Proof.
  split; [exact dy_run_ok|]. split; [exact dy_run_trusted|]. split.
  - apply (k_shown _ (EWrite 0 1 2 0 (TMsg 5))); is_in.
  - apply (k_shown _ (EHandle 0 dy_h1 dy_id 1 2 0 (TMsg 5) (Some (TMsg 6)))); is_in.
Qed.
