(** Proofs about the shared write deadline. *)
From Verif Require Import Bytes UdpDeadline SpecUdpDeadline.

Lemma deadline_back wto : 1 < wto -> exists s, usteps wto ust0 s /\ lost_early wto (u_log s).
Proof.
  intros W. eexists. split.
  - eapply us_step. eapply us_step. eapply us_step. eapply us_step. eapply us_step. eapply us_step. eapply us_step. eapply us_step. eapply us_step.
    apply us_refl.
    + apply (U_spawn _ _ 0%nat). reflexivity.
    + apply (U_spawn _ _ 1%nat). reflexivity.
    + apply (U_ref _ _ 0%nat). reflexivity.
    + apply (U_clock _ _ 1). cbn. lia.
    + apply (U_ref _ _ 1%nat). reflexivity.
    + eapply (U_set _ _ 1%nat). cbn. destruct (N.ltb_spec 0 wto); [reflexivity|lia].
    + eapply (U_set _ _ 0%nat). cbn. destruct (N.ltb_spec 0 wto); [reflexivity|lia].
    + apply (U_clock _ _ wto). cbn. lia.
    + eapply (U_close _ _ 1%nat). cbn. reflexivity.
  - cbn. exists 1%nat, 1, wto. rewrite N.leb_refl. split; [right; left; reflexivity|]. split; [right; right; left; reflexivity|lia].
Qed.

Definition inv (wto : N) (s : ust) : Prop :=
  (forall i t, u_pc s i = URef t -> t = u_now s /\ 0 < wto) /\
  (forall i t, u_pc s i = UWork t -> t <= u_now s /\ match u_dl s with Some d => t + wto <= d | None => wto = 0 end) /\
  match u_dl s with Some d => d <= u_now s + wto /\ 0 < wto | None => True end /\
  (forall i t, In (UTook i t) (u_log s) -> u_pc s i = URef t \/ u_pc s i = UWork t \/
     u_pc s i = UEnd /\ forall t', In (ULost i t') (u_log s) -> t + wto <= t') /\
  (forall i t, In (ULost i t) (u_log s) -> u_pc s i = UEnd) /\
  (wto = 0 -> u_dl s = None).

Lemma prompt_inv wto s : prompt wto s -> inv wto s.
Proof.
  induction 1 as [|s s' P IH S C].
  - unfold inv; cbn. repeat split; try discriminate; intros; contradiction.
  - destruct IH as (I1 & I2 & I3 & I4 & I5 & I6). destruct S as [t T|i E|i E|i t E|i t E]; unfold inv; cbn [u_now u_dl u_pc u_log u_go u_say u_set] in *.
    + assert (D : t = u_now s \/ u_now s < t) by lia.
      split. { intros i t' E. destruct D as [->|D]; [apply (I1 i t' E)|]. destruct (C D i t' E). }
      split. { intros i t' E. destruct (I2 i t' E). split; [lia|assumption]. }
      split. { destruct (u_dl s); auto. lia. }
      auto.
    + split. { intros j t. destruct (Nat.eqb i j); [discriminate|apply I1]. }
      split. { intros j t. destruct (Nat.eqb i j); [discriminate|apply I2]. }
      split; [exact I3|]. split; [|split; [|exact I6]].
      { intros j t H. destruct (Nat.eqb_spec i j) as [<-|]; [|apply I4; exact H].
        destruct (I4 _ _ H) as [X|[X|[X _]]]; rewrite E in X; discriminate X. }
      { intros j t H. destruct (Nat.eqb_spec i j) as [<-|]; [|apply (I5 _ _ H)]. rewrite (I5 _ _ H) in E. discriminate E. }
    + assert (F : forall t, ~ In (UTook i t) (u_log s)).
      { intros t H. destruct (I4 _ _ H) as [X|[X|[X _]]]; rewrite E in X; discriminate X. }
      assert (G : forall t, ~ In (ULost i t) (u_log s)).
      { intros t H. rewrite (I5 _ _ H) in E. discriminate E. }
      assert (LA : forall j t', In (ULost j t') (u_log s ++ [UTook i (u_now s)]) -> In (ULost j t') (u_log s)).
      { intros j t' H. apply in_app_or in H. destruct H as [H|[H|[]]]; [exact H|discriminate H]. }
      split. { intros j t. destruct (Nat.eqb i j); [|apply I1]. destruct (N.ltb_spec 0 wto); [|discriminate]. intros X. injection X as <-. auto. }
      split. { intros j t. destruct (Nat.eqb i j); [|apply I2]. destruct (N.ltb_spec 0 wto); [discriminate|]. intros X. injection X as <-.
        assert (Z : wto = 0) by lia. split; [lia|]. rewrite (I6 Z). exact Z. }
      split; [exact I3|]. split; [|split; [|exact I6]].
      { intros j t H. apply in_app_or in H. destruct (Nat.eqb_spec i j) as [<-|N].
        - destruct H as [H|[H|[]]]; [destruct (F _ H)|]. injection H as <-. destruct (0 <? wto); auto.
        - destruct H as [H|[H|[]]]; [|injection H as X _; congruence].
          destruct (I4 _ _ H) as [X|[X|[X Y]]]; auto. right. right. split; auto. }
      { intros j t H. apply LA in H. destruct (Nat.eqb_spec i j) as [<-|]; [destruct (G _ H)|apply (I5 _ _ H)]. }
    + destruct (I1 _ _ E) as [-> W]. split. { intros j t'. destruct (Nat.eqb i j); [discriminate|apply I1]. }
      split. { intros j t'. destruct (Nat.eqb i j); [intros X; injection X as <-; split; lia|]. intros X.
        destruct (I2 _ _ X) as [Y Z]. split; [exact Y|]. lia. }
      split; [lia|]. split; [|split].
      { intros j t' H. destruct (Nat.eqb_spec i j) as [<-|]; [|apply I4; exact H].
        destruct (I4 _ _ H) as [X|[X|[X _]]]; rewrite E in X; try discriminate X. injection X as <-. auto. }
      { intros j t' H. destruct (Nat.eqb_spec i j) as [<-|]; [|apply (I5 _ _ H)]. rewrite (I5 _ _ H) in E. discriminate E. }
      { lia. }
    + set (e := if match u_dl s with Some d => d <=? u_now s | None => false end then ULost i (u_now s) else USent i (u_now s)).
      assert (G : forall t', ~ In (ULost i t') (u_log s)).
      { intros t' H. rewrite (I5 _ _ H) in E. discriminate E. }
      destruct (I2 _ _ E) as [T1 T2].
      assert (LE : forall j t', e = ULost j t' -> j = i /\ t + wto <= t').
      { unfold e. intros j t'. destruct (u_dl s) as [d|]; [|discriminate]. destruct (N.leb_spec d (u_now s)); [|discriminate].
        intros X. injection X as <- <-. split; [reflexivity|]. lia. }
      assert (TE : forall j t', e <> UTook j t') by (intros; unfold e; destruct (match u_dl s with Some d => d <=? u_now s | None => false end); discriminate).
      split. { intros j t'. destruct (Nat.eqb i j); [discriminate|apply I1]. }
      split. { intros j t'. destruct (Nat.eqb i j); [discriminate|apply I2]. }
      split; [exact I3|]. split; [|split; [|exact I6]].
      { intros j t0 H. apply in_app_or in H. destruct H as [H|[H|[]]]; [|destruct (TE _ _ H)].
        destruct (Nat.eqb_spec i j) as [<-|N].
        - right. right. split; [reflexivity|]. intros t' Hl. apply in_app_or in Hl. destruct Hl as [Hl|[Hl|[]]]; [destruct (G _ Hl)|].
          apply LE in Hl. destruct (I4 _ _ H) as [X|[X|[X _]]]; rewrite E in X; try discriminate X. injection X as <-. apply Hl.
        - destruct (I4 _ _ H) as [X|[X|[X Y]]]; auto. right. right. split; auto.
          intros t' Hl. apply in_app_or in Hl. destruct Hl as [Hl|[Hl|[]]]; auto. apply LE in Hl. destruct Hl; congruence. }
      { intros j t' H. apply in_app_or in H. destruct (Nat.eqb_spec i j) as [<-|N]; [reflexivity|].
        destruct H as [H|[H|[]]]; [apply (I5 _ _ H)|]. apply LE in H. destruct H; congruence. }
Qed.
Lemma in_time_sent wto s : prompt wto s -> ~ lost_early wto (u_log s).
Proof.
  intros P (i & t & t' & T & Lo & H). apply prompt_inv in P. destruct P as (_ & _ & _ & I4 & I5 & _).
  pose proof (I5 _ _ Lo) as E. destruct (I4 _ _ T) as [X|[X|[_ X]]]; [congruence..|]. apply X in Lo. lia.
Qed.
Lemma no_timeout_sent s : usteps 0 ust0 s -> forall i t, ~ In (ULost i t) (u_log s).
Proof.
  assert (X : forall a s, usteps 0 a s -> a = ust0 -> (u_dl s = None /\ (forall i t, u_pc s i <> URef t) /\ forall i t, ~ In (ULost i t) (u_log s))).
  { intros a s1 H. induction H as [|a s2 s3 H IH S]; intros ->.
    - cbn. repeat split; try discriminate; auto.
    - destruct (IH eq_refl) as (A & B & D). destruct S as [t T|i E|i E|i t E|i t E]; cbn [u_dl u_log u_pc u_go u_say u_set]; auto.
      + repeat split; auto. intros j t. destruct (Nat.eqb i j); [discriminate|apply B].
      + repeat split; auto.
        * intros j t. destruct (Nat.eqb i j); [discriminate|apply B].
        * intros j t H1. apply in_app_or in H1. destruct H1 as [H1|[H1|[]]]; [apply (D _ _ H1)|discriminate H1].
      + destruct (B _ _ E).
      + rewrite A. repeat split; auto.
        * intros j t'. destruct (Nat.eqb i j); [discriminate|apply B].
        * intros j t' H1. apply in_app_or in H1. destruct H1 as [H1|[H1|[]]]; [apply (D _ _ H1)|discriminate H1]. }
  intros H. apply (X _ _ H eq_refl).
Qed.

Lemma shared_example : exists s, prompt 5 s /\ u_log s = [UTook 0 0; UTook 1 3; USent 0 6; ULost 1 8].
Proof.
  eexists. split.
  - eapply pr_step. eapply pr_step. eapply pr_step. eapply pr_step. eapply pr_step. eapply pr_step. eapply pr_step. eapply pr_step. eapply pr_step.
    eapply pr_step. eapply pr_step. apply pr_init.
    + apply (U_spawn _ _ 0%nat). reflexivity.
    + cbn; lia.
    + apply (U_ref _ _ 0%nat). reflexivity.
    + cbn; lia.
    + eapply (U_set _ _ 0%nat). reflexivity.
    + cbn; lia.
    + apply (U_clock _ _ 3). cbn. lia.
    + intros _ i t. cbn. destruct i; cbn; discriminate.
    + apply (U_spawn _ _ 1%nat). reflexivity.
    + cbn; lia.
    + apply (U_ref _ _ 1%nat). reflexivity.
    + cbn; lia.
    + eapply (U_set _ _ 1%nat). reflexivity.
    + cbn; lia.
    + apply (U_clock _ _ 6). cbn. lia.
    + intros _ i t. cbn. destruct i as [|[|i]]; cbn; discriminate.
    + eapply (U_close _ _ 0%nat). reflexivity.
    + cbn; lia.
    + apply (U_clock _ _ 8). cbn. lia.
    + intros _ i t. cbn. destruct i as [|[|i]]; cbn; discriminate.
    + eapply (U_close _ _ 1%nat). reflexivity.
    + cbn; lia.
  - reflexivity.
Qed.
