(** Parts that hold of properties refuted elsewhere: C92. *)
From Verif Require Import Bytes BytesProofs ClientConc Life SpecLife LifeProofs LifeInv.

Definition left_of (p : lpc) : nat :=
  match p with AAccept => 4 | AAdd => 3 | ASpawn => 2 | AQuit => 1 | _ => 0 end.
Lemma listener_own s a c s' : l_quit s = true -> listener (l_pc s a) = true -> ldo s a c = Some s' ->
  l_quit s' = true /\ (l_crashed s' = true \/
  listener (l_pc s' a) = true /\ l_pc s' a <> AAccept /\ (left_of (l_pc s' a) < left_of (l_pc s a))%nat).
Proof.
  intros Q L D. unfold ldo in D. destruct (l_crashed s); [discriminate|].
  destruct (l_pc s a) eqn:P; try discriminate L; destruct c; try discriminate D.
  - injection D as <-. rewrite Q. cbn. rewrite upd_same. split; [exact Q|]. right. repeat split; [discriminate|cbn; lia].
  - injection D as <-. cbn. rewrite upd_same. split; [exact Q|]. right. repeat split; [discriminate|cbn; lia].
  - injection D as <-. cbn. rewrite upd_same. split; [exact Q|]. right. repeat split; [discriminate|cbn; lia].
  - injection D as <-. destruct (_ && _); cbn; [auto|]. rewrite upd_same. split; [exact Q|]. right. repeat split; [discriminate|cbn; lia].
  - destruct (l_pc s j) eqn:J; try discriminate D. injection D as <-. cbn. rewrite upd_same. split; [exact Q|]. right. repeat split; [discriminate|cbn; lia].
Qed.
Lemma quit_kept s i c s' : ldo s i c = Some s' -> l_quit s = true -> l_quit s' = true.
Proof.
  intros D Q. rewrite (quit_step s i c s' D), Q. reflexivity.
Qed.
Lemma listener_run a : forall l s s', l_quit s = true -> listener (l_pc s a) = true -> lrun s l = Some s' ->
  l_quit s' = true /\ (l_crashed s' = true \/ listener (l_pc s' a) = true /\ (own_steps a l + left_of (l_pc s' a) <= left_of (l_pc s a))%nat).
Proof.
  induction l as [|(i & c) l IH]; intros s s' Q L R.
  - injection R as <-. split; [exact Q|]. right. split; [exact L|]. cbn. lia.
  - cbn [lrun] in R. destruct (ldo s i c) as [s1|] eqn:D; [|discriminate].
    assert (Cr : l_crashed s1 = true -> s' = s1).
    { intros X. destruct l as [|(i' & c') l]; [cbn in R; congruence|]. cbn in R. unfold ldo in R. rewrite X in R. discriminate. }
    destruct (Nat.eq_dec i a) as [->|Ne].
    + destruct (listener_own s a c s1 Q L D) as [Q1 [X|(L1 & _ & B)]].
      * rewrite (Cr X). auto.
      * destruct (IH s1 s' Q1 L1 R) as [Q' [X|(L' & B')]]; [auto|]. split; [exact Q'|]. right. split; [exact L'|].
        unfold own_steps in *. cbn [filter fst]. rewrite Nat.eqb_refl. cbn [length]. lia.
    + assert (P1 : l_pc s1 a = l_pc s a).
      { destruct (step_other s i c s1 a D ltac:(congruence)) as [X|[X _]]; [exact X|]. rewrite X in L. discriminate. }
      assert (Q1 : l_quit s1 = true) by apply (quit_kept s i c s1 D Q).
      destruct (IH s1 s' Q1 ltac:(rewrite P1; exact L) R) as [Q' [X|(L' & B')]]; [auto|]. split; [exact Q'|]. right. split; [exact L'|].
      unfold own_steps in *. cbn [filter fst]. destruct (Nat.eqb_spec i a); [congruence|]. rewrite P1 in B'. exact B'.
Qed.
Lemma listener_moves s a : lreach s -> l_crashed s = false -> listener (l_pc s a) = true -> l_pc s a = AEnd \/ exists c, ldo s a c <> None.
Proof.
  intros R Cr L. destruct (l_pc s a) eqn:P; try discriminate L; auto; right.
  - exists ChOk. unfold ldo. rewrite Cr, P. discriminate.
  - exists ChOk. unfold ldo. rewrite Cr, P. discriminate.
  - exists ChOk. unfold ldo. rewrite Cr, P. discriminate.
  - destruct (finite_reach s R) as [n H]. exists (ChNew n). unfold ldo. rewrite Cr, P, (H n) by lia. discriminate.
Qed.
Lemma lrun_reach l : forall s s', lreach s -> lrun s l = Some s' -> lreach s'.
Proof.
  induction l as [|(i & c) l IH]; intros s s' R H; [injection H as <-; exact R|].
  cbn [lrun] in H. destruct (ldo s i c) as [s1|] eqn:D; [|discriminate]. apply (IH s1 s'); [|exact H]. econstructor; eassumption.
Qed.
(** A listener that is told to quit ends after at most four steps of its own; what it
    may wait for is the end of Accept, once. *)
Lemma port_released s a sched s' : lreach s -> l_quit s = true -> listener (l_pc s a) = true -> lrun s sched = Some s' ->
  l_crashed s' = true \/
  (own_steps a sched <= 4)%nat /\ (l_pc s' a = AEnd \/ exists c, ldo s' a c <> None) /\
  ((0 < own_steps a sched)%nat -> l_pc s' a <> AAccept).
Proof.
  intros R Q L H. destruct (listener_run a sched s s' Q L H) as [Q' [X|(L' & B)]]; [auto|].
  destruct (l_crashed s') eqn:Cr; [auto|]. right.
  assert (B4 : (left_of (l_pc s a) <= 4)%nat) by (destruct (l_pc s a); cbn; lia).
  split; [lia|]. split; [apply listener_moves; [apply (lrun_reach _ _ _ R H)|exact Cr|exact L']|].
  intros Z E. rewrite E in B. cbn in B. lia.
Qed.
