(** TCP connections once the server is told to quit. *)
From Verif Require Import Bytes ClientConc Life SpecLife LifeProofs LifeInv LifePort LifeThms LifeDrain.

Definition hleft (p : lpc) : nat :=
  match p with HRead => 7 | HHandle => 6 | HQuit => 5 | HClose => 4 | HDone => 3 | HLast _ => 2 | HRel _ => 1 | _ => 0 end%nat.
Definition hreads (p : lpc) : nat := match p with HRead => 1 | _ => 0 end%nat.
Definition hruns (p : lpc) : nat := match p with HRead | HHandle => 1 | _ => 0 end%nat.

Lemma crashed_stops s i c : l_crashed s = true -> ldo s i c = None.
Proof. intros H. unfold ldo. rewrite H. reflexivity. Qed.

Lemma conn_own s a c s' : l_quit s = true -> connection (l_pc s a) = true -> ldo s a c = Some s' ->
  exists oe, l_trace s' = ev_list a oe ++ l_trace s /\ connection (l_pc s' a) = true /\
    ((l_crashed s' = true /\ l_pc s' = l_pc s /\ (1 <= hleft (l_pc s a))%nat /\ reads_of a (ev_list a oe) = 0%nat /\ handled_of a (ev_list a oe) = 0%nat) \/
     ((hleft (l_pc s' a) < hleft (l_pc s a))%nat /\
      (reads_of a (ev_list a oe) + hreads (l_pc s' a) <= hreads (l_pc s a))%nat /\
      (handled_of a (ev_list a oe) + hruns (l_pc s' a) <= hruns (l_pc s a))%nat)).
Proof.
  intros Q L D. destruct (step_next s a c s' D) as (oe & E & N). exists oe. split; [exact E|]. rewrite Q in N.
  destruct N as [(Cr & P & X)|(_ & N)].
  - rewrite P. split; [exact L|]. left. split; [exact Cr|]. split; [reflexivity|].
    destruct X as [[X _]|[[-> X]|[-> X]]]; [rewrite X in L; discriminate| |rewrite X; repeat split; cbn; lia].
    destruct (l_pc s a); try discriminate X; repeat split; cbn; lia.
  - inversion N as [H0 H1 H2|H0 H1 H2|H0 H1 H2|H0 H1 H2|H0 H1 H2|H0 H1 H2|H0 H1 H2|? H0 H1 H2|H0 H1 H2|H0 H1 H2|H0 H1 H2|H0 H1 H2|H0 H1 H2|H0 H1 H2|H0 H1 H2|? H0 H1 H2|? H0 H1 H2|? H0 H1 H2|H0 H1 H2|H0 H1 H2|H0 H1 H2|H0 H1 H2|H0 H1 H2|H0 H1 H2|Z H0 H1 H2|Z H0 H1 H2|H0 H1 H2|H0 H1 H2|H0 H1 H2|H0 H1 H2|H0 H1 H2];
      rewrite <- H0 in L; try discriminate L; (split; [reflexivity|]); right;
      unfold reads_of, handled_of; cbn [ev_list filter fst snd hleft hreads hruns length]; rewrite ?Nat.eqb_refl; cbn; lia.
Qed.

Lemma conn_run a : forall l s s', l_quit s = true -> l_crashed s = false -> connection (l_pc s a) = true -> lrun s l = Some s' ->
  connection (l_pc s' a) = true /\ exists post, l_trace s' = post ++ l_trace s /\
    (own_steps a l + (if l_crashed s' then 0 else hleft (l_pc s' a)) <= hleft (l_pc s a))%nat /\
    (reads_of a post <= hreads (l_pc s a))%nat /\ (handled_of a post <= hruns (l_pc s a))%nat.
Proof.
  induction l as [|(i & c) l IH]; intros s s' Q Cr L R.
  - injection R as <-. split; [exact L|]. exists []. rewrite Cr. cbn. repeat split; lia.
  - cbn [lrun] in R. destruct (ldo s i c) as [s1|] eqn:D; [|discriminate].
    assert (App1 : forall p q, reads_of a (p ++ q) = (reads_of a p + reads_of a q)%nat).
    { intros p q. unfold reads_of. rewrite filter_app, app_length. reflexivity. }
    assert (App2 : forall p q, handled_of a (p ++ q) = (handled_of a p + handled_of a q)%nat).
    { intros p q. unfold handled_of. rewrite filter_app, app_length. reflexivity. }
    destruct (l_crashed s1) eqn:Cr1.
    { destruct l as [|(i2 & c2) l]; [|cbn [lrun] in R; rewrite (crashed_stops _ _ _ Cr1) in R; discriminate].
      injection R as <-. rewrite Cr1. destruct (Nat.eq_dec i a) as [->|Ne].
      - destruct (conn_own s a c s1 Q L D) as (oe & E & L1 & H). split; [exact L1|]. exists (ev_list a oe). split; [exact E|].
        unfold own_steps. cbn [filter fst]. rewrite Nat.eqb_refl. cbn [length]. destruct H as [(_ & _ & H1 & H2 & H3)|(H1 & H2 & H3)]; lia.
      - assert (P1 : l_pc s1 a = l_pc s a).
        { destruct (step_other s i c s1 a D ltac:(congruence)) as [X|[X _]]; [exact X|]. rewrite X in L. discriminate. }
        rewrite P1. split; [exact L|]. destruct (step_next s i c s1 D) as (oe & E & _). exists (ev_list i oe). split; [exact E|].
        unfold own_steps. cbn [filter fst]. destruct (Nat.eqb_spec i a); [congruence|]. cbn [length].
        destruct oe; cbn [ev_list]; unfold reads_of, handled_of; cbn [filter fst]; [destruct (Nat.eqb_spec i a); [congruence|]|]; cbn; lia. }
    destruct (Nat.eq_dec i a) as [->|Ne].
    + destruct (conn_own s a c s1 Q L D) as (oe & E & L1 & H). destruct H as [(X & _)|(H1 & H2 & H3)]; [congruence|].
      destruct (IH s1 s' (quit_kept s a c s1 D Q) Cr1 L1 R) as (L' & post & E' & B1 & B2 & B3). split; [exact L'|].
      exists (post ++ ev_list a oe). rewrite E', E, app_assoc. split; [reflexivity|]. rewrite App1, App2.
      unfold own_steps in *. cbn [filter fst]. rewrite Nat.eqb_refl. cbn [length]. lia.
    + assert (P1 : l_pc s1 a = l_pc s a).
      { destruct (step_other s i c s1 a D ltac:(congruence)) as [X|[X _]]; [exact X|]. rewrite X in L. discriminate. }
      destruct (step_next s i c s1 D) as (oe & E & _).
      destruct (IH s1 s' (quit_kept s i c s1 D Q) Cr1 ltac:(rewrite P1; exact L) R) as (L' & post & E' & B1 & B2 & B3). split; [exact L'|].
      exists (post ++ ev_list i oe). rewrite E', E, app_assoc. split; [reflexivity|]. rewrite App1, App2, <- P1.
      assert (Z : reads_of a (ev_list i oe) = 0%nat /\ handled_of a (ev_list i oe) = 0%nat).
      { destruct oe; cbn [ev_list]; unfold reads_of, handled_of; cbn [filter fst]; [destruct (Nat.eqb_spec i a); [congruence|]|]; cbn; lia. }
      unfold own_steps in *. cbn [filter fst]. destruct (Nat.eqb_spec i a); [congruence|]. lia.
Qed.

Lemma winds_down s a sched s' : lreach s -> l_quit s = true -> connection (l_pc s a) = true -> lrun s sched = Some s' ->
  (own_steps a sched <= 7)%nat /\
  (exists post, l_trace s' = post ++ l_trace s /\ (handled_of a post <= 1)%nat /\
     (l_pc s a <> HRead -> reads_of a post = 0%nat /\ (l_pc s a <> HHandle -> handled_of a post = 0%nat))) /\
  (l_crashed s' = false -> l_pc s' a = HEnd \/ exists c s2, ldo s' a c = Some s2 /\ (l_pc s' a = HRead -> c = ChErr)).
Proof.
  intros R Q L H. destruct (l_crashed s) eqn:Cr.
  { destruct sched as [|(i & c) l]; [|cbn [lrun] in H; rewrite (crashed_stops _ _ _ Cr) in H; discriminate].
    injection H as <-. split; [cbn; lia|]. split; [exists []; repeat split; cbn; lia|congruence]. }
  destruct (conn_run a sched s s' Q Cr L H) as (L' & post & E & B1 & B2 & B3).
  assert (B7 : (hleft (l_pc s a) <= 7)%nat) by (destruct (l_pc s a); cbn; lia).
  assert (B8 : (hruns (l_pc s a) <= 1)%nat) by (destruct (l_pc s a); cbn; lia).
  split; [lia|]. split.
  { exists post. split; [exact E|]. split; [lia|]. intros N1. split.
    - destruct (l_pc s a); cbn in B2; try lia. congruence.
    - intros N2. destruct (l_pc s a); cbn in B3; try lia; congruence. }
  intros Cr'. destruct (l_pc s' a) eqn:P; try discriminate L'; auto; right.
  - exists ChOk. unfold ldo. rewrite Cr', P. eexists. split; [reflexivity|discriminate].
  - exists ChErr. unfold ldo. rewrite Cr', P. eexists. split; [reflexivity|reflexivity].
  - exists ChOk. unfold ldo. rewrite Cr', P. eexists. split; [reflexivity|discriminate].
  - exists ChOk. unfold ldo. rewrite Cr', P. eexists. split; [reflexivity|discriminate].
  - exists ChOk. unfold ldo. rewrite Cr', P. eexists. split; [reflexivity|discriminate].
  - exists ChOk. unfold ldo. rewrite Cr', P. eexists. split; [reflexivity|discriminate].
  - exists ChOk. unfold ldo. rewrite Cr', P. eexists. split; [reflexivity|discriminate].
Qed.
