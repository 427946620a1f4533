From Verif Require Import Bytes ClientConc Life SpecLife LifeProofs LifeInv.

(** ** The WaitGroup as long as nothing is added after the channel was closed *)
Definition phase (pc : nat -> lpc) (p : lpc) (v : Z) (w sema : nat) : Prop :=
  match p with
  | KWait | KReturned => w = 0%nat /\ sema = 0%nat
  | KBlocked => (w = 1%nat /\ sema = 0%nat /\ ((0 < v)%Z \/ exists j, releasing (pc j) = true)) \/ (w = 0%nat /\ sema = 1%nat /\ v = 0%Z)
  | KWoken => w = 0%nat /\ sema = 0%nat /\ v = 0%Z
  | _ => False
  end.
Definition ginv (pc : nat -> lpc) (quit : bool) (v : Z) (w sema : nat) (tr : list (nat * lev)) : Prop :=
  (if quit then exists k, (forall k', in_close (pc k') = true <-> k' = k) /\ In (k, EQuit) tr /\ phase pc (pc k) v w sema
   else w = 0%nat /\ sema = 0%nat /\ forall k, in_close (pc k) = false) /\
  (forall k, pc k = KPanicked -> exists k', k' <> k /\ In (k', EQuit) tr).
Definition gi (s : lst) : Prop := l_crashed s = false /\ ginv (l_pc s) (l_quit s) (l_v s) (l_w s) (l_sema s) (l_trace s).

Lemma phase_upd pc i p q v w sema : releasing (pc i) = false -> phase pc q v w sema -> phase (upd pc i p) q v w sema.
Proof.
  intros Ri H. destruct q; try exact H. cbn in *. destruct H as [(A & B & [X|[j X]])|H]; [left; auto|left|right; exact H].
  split; [exact A|]. split; [exact B|]. right. exists j. rewrite upd_other; [exact X|congruence].
Qed.
Lemma ginv_move pc quit v w sema tr i p tr' : ginv pc quit v w sema tr -> in_close (pc i) = false -> releasing (pc i) = false ->
  in_close p = false -> p <> KPanicked -> (forall x, In x tr -> In x tr') -> ginv (upd pc i p) quit v w sema tr'.
Proof.
  intros [H1 H2] Ci Ri Cp Pp Ht. split.
  - destruct quit.
    + destruct H1 as (k & U & T & Ph). exists k. assert (Ne : k <> i) by (intros ->; rewrite (proj2 (U i) eq_refl) in Ci; discriminate Ci). split; [|split].
      * intros k'. destruct (Nat.eq_dec k' i) as [->|N']; [rewrite upd_same, Cp; split; [discriminate|congruence]|]. rewrite upd_other by exact N'. apply U.
      * apply Ht, T.
      * rewrite upd_other by exact Ne. apply phase_upd; assumption.
    + destruct H1 as (A & B & D). split; [exact A|]. split; [exact B|]. intros k.
      destruct (Nat.eq_dec k i) as [->|N']; [rewrite upd_same; exact Cp|]. rewrite upd_other by exact N'. apply D.
  - intros k. destruct (Nat.eq_dec k i) as [->|N']; [rewrite upd_same; congruence|]. rewrite upd_other by exact N'. intros X.
    destruct (H2 k X) as (k' & Y & Z). eauto.
Qed.
(** The one goroutine in Close. *)
Lemma ginv_self pc v w sema tr i p v' w' sema' tr' : ginv pc true v w sema tr -> in_close (pc i) = true ->
  in_close p = true -> (phase pc (pc i) v w sema -> phase pc p v' w' sema') -> (forall x, In x tr -> In x tr') ->
  ginv (upd pc i p) true v' w' sema' tr'.
Proof.
  intros [(k & U & T & Ph) H2] Ci Cp Hp Ht. apply U in Ci as Ek. subst k. split.
  - exists i. split; [|split].
    + intros k'. destruct (Nat.eq_dec k' i) as [->|N']; [rewrite upd_same, Cp; tauto|]. rewrite upd_other by exact N'. apply U.
    + apply Ht, T.
    + rewrite upd_same. apply phase_upd; [destruct (pc i); try discriminate Ci; reflexivity|]. apply Hp, Ph.
  - intros k. destruct (Nat.eq_dec k i) as [->|N']; [rewrite upd_same; intros ->; discriminate Cp|]. rewrite upd_other by exact N'. intros X.
    destruct (H2 k X) as (k' & Y & Z). eauto.
Qed.

Lemma no_late_tail l tr : no_late_add (l ++ tr) -> no_late_add tr.
Proof. intros H post k pre a E. intros I. apply (H (l ++ post) k pre a); [rewrite E, app_assoc; reflexivity|apply in_app_iff; auto]. Qed.

Lemma gi_reach s : lreach s -> no_late_add (l_trace s) -> gi s.
Proof.
  induction 1 as [|s i c s' R IH D]; intros NL.
  { split; [reflexivity|]. split; [cbn; auto|]. intros k X. discriminate X. }
  destruct (step_next s i c s' D) as (oe & E & _). rewrite E in NL. specialize (IH (no_late_tail _ _ NL)).
  destruct IH as [_ G]. pose proof (winv_reach s R) as W. pose proof (proj2 (quit_in_trace s R)) as Qt.
  pose proof (step_crashed s i c s' D) as Cr0. destruct (W Cr0) as [Wc Wr]. clear W Cr0.
  assert (M : forall p tr', in_close (l_pc s i) = false -> releasing (l_pc s i) = false -> in_close p = false -> p <> KPanicked ->
     (forall x, In x (l_trace s) -> In x tr') -> ginv (upd (l_pc s) i p) (l_quit s) (l_v s) (l_w s) (l_sema s) tr').
  { intros p tr' A B F K T. eapply ginv_move; eassumption. }
  assert (In0 : forall x : nat * lev, In x (l_trace s) -> In x (l_trace s)) by auto.
  assert (In1 : forall e (x : nat * lev), In x (l_trace s) -> In x ((i, e) :: l_trace s)) by (intros; right; assumption).
  unfold gi. steps_of D.
  all: try (injection D as <-; lsim; split; [exact Cr|]; apply M; first [reflexivity|discriminate|exact In0|apply In1]; fail).
  - injection D as <-. split; [exact Cr|]. lsim. apply M; try (destruct (l_quit s); first [reflexivity|discriminate]); try reflexivity; exact In0.
  - (* AAdd *) destruct (l_quit s) eqn:Q.
    { exfalso. destruct (Qt eq_refl) as [k I]. apply in_split in I as (l1 & l2 & I).
      assert (Eo : oe = Some EAdd).
      { injection D as <-. destruct (_ && _); lsim; destruct oe as [e|]; cbn [ev_list app] in E;
          first [congruence|exfalso; apply (f_equal (@length _)) in E; cbn in E; lia]. }
      subst oe. cbn [ev_list app] in NL. apply (NL ((i, EAdd) :: l1) k l2 i); [rewrite I; reflexivity|left; reflexivity]. }
    destruct G as [(Ew & Es & U) Hp]. injection D as <-. rewrite Ew in *. cbn [Nat.eqb negb andb]. lsim. split; [exact Cr|]. rewrite ?Ew, ?Es, ?Q.
    split.
    + split; [reflexivity|]. split; [reflexivity|]. intros k. destruct (Nat.eq_dec k i) as [->|N']; [rewrite upd_same; reflexivity|]. rewrite upd_other by exact N'. apply U.
    + intros k. destruct (Nat.eq_dec k i) as [->|N']; [rewrite upd_same; discriminate|]. rewrite upd_other by exact N'. intros X.
      destruct (Hp k X) as (k' & Y & Z). exists k'. split; [exact Y|right; exact Z].
  - (* ASpawn *) destruct (l_pc s j) eqn:Pj; try discriminate D. injection D as <-. lsim. split; [exact Cr|].
    assert (Ne : i <> j) by congruence.
    eapply ginv_move; [eapply ginv_move; [exact G|rewrite Pj; reflexivity|rewrite Pj; reflexivity|reflexivity|discriminate|exact In0]|..];
      rewrite ?upd_other by exact Ne; rewrite ?P; try reflexivity; try discriminate. apply In1.
  - injection D as <-. split; [exact Cr|]. lsim. apply M; try (destruct (l_quit s); first [reflexivity|discriminate]); try reflexivity; exact In0.
  - (* HDone *) pose proof (counted_pos _ _ i Wc ltac:(rewrite P; reflexivity)) as Pos.
    assert (Ph : forall p, in_close p = false -> p <> KPanicked -> ((0 < l_v s - 1)%Z \/ l_w s = 0%nat \/ releasing p = true) ->
       ginv (upd (l_pc s) i p) (l_quit s) (l_v s - 1) (l_w s) (l_sema s) (l_trace s)).
    { intros p Cp Kp H. specialize (M p (l_trace s) eq_refl eq_refl Cp Kp In0). destruct M as [M1 M2]. split; [|exact M2].
      destruct (l_quit s); [|exact M1]. destruct M1 as (k & U & T & Ph). exists k. split; [exact U|]. split; [exact T|].
      destruct (upd (l_pc s) i p k) eqn:Pk; try exact Ph; cbn in *.
      - destruct Ph as [(A & B & _)|(_ & _ & X)]; [|lia]. left. split; [exact A|]. split; [exact B|].
        destruct H as [H|[H|H]]; [auto|lia|]. right. exists i. rewrite upd_same. exact H.
      - lia. }
    injection D as <-. destruct (Z.ltb_spec (l_v s - 1) 0) as [L|L]; [lia|]. destruct (Z.ltb_spec 0 (l_v s - 1)) as [Gt|Gt]; cbn [orb].
    + lsim. split; [exact Cr|]. apply Ph; [reflexivity|discriminate|auto].
    + destruct (Nat.eqb_spec (l_w s) 0) as [E0|E0]; lsim; (split; [exact Cr|]; apply Ph; [reflexivity|discriminate|auto]).
  - (* HLast *) destruct (proj1 Wr i w ltac:(auto)) as (Ev & Ew & Nw). injection D as <-. rewrite Ev, <- Ew, Z.eqb_refl, Nat.eqb_refl. cbn [andb].
    lsim. split; [exact Cr|]. rewrite Ev in *. rewrite <- Ew in *. destruct G as [G1 G2]. split.
    + destruct (l_quit s); [|destruct G1 as (X & _); congruence]. destruct G1 as (k & U & T & Ph). exists k.
      assert (Ne : k <> i) by (intros ->; pose proof (proj2 (U i) eq_refl) as X; rewrite P in X; discriminate X). split; [|split].
      * intros k'. destruct (Nat.eq_dec k' i) as [->|N']; [rewrite upd_same; split; [discriminate|congruence]|]. rewrite upd_other by exact N'. apply U.
      * exact T.
      * rewrite upd_other by exact Ne. destruct (l_pc s k); try exact Ph; cbn in *.
        destruct Ph as [(A & B & _)|(X & _)]; [|congruence]. left. split; [exact A|]. split; [exact B|]. right. exists i. rewrite upd_same. reflexivity.
    + intros k. destruct (Nat.eq_dec k i) as [->|N']; [rewrite upd_same; discriminate|]. rewrite upd_other by exact N'. apply G2.
  - (* HRel *) destruct (proj1 Wr i w ltac:(auto)) as (Ev & Ew & Nw). injection D as <-. lsim. split; [exact Cr|]. destruct G as [G1 G2]. split.
    + destruct (l_quit s); [|destruct G1 as (X & _); congruence]. destruct G1 as (k & U & T & Ph). exists k.
      assert (Ne : k <> i) by (intros ->; pose proof (proj2 (U i) eq_refl) as X; rewrite P in X; discriminate X). split; [|split].
      * intros k'. destruct (Nat.eq_dec k' i) as [->|N']; [rewrite upd_same; split; [discriminate|congruence]|]. rewrite upd_other by exact N'. apply U.
      * exact T.
      * rewrite upd_other by exact Ne. destruct (l_pc s k); cbn in *; try tauto; try (exfalso; destruct Ph as [X _]; congruence).
        destruct Ph as [(A & B & _)|(X & _)]; [|congruence]. right. split; [reflexivity|]. split; [|reflexivity]. rewrite B, Ew, A. reflexivity.
    + intros k. destruct (Nat.eq_dec k i) as [->|N']; [rewrite upd_same; discriminate|]. rewrite upd_other by exact N'. apply G2.
  - injection D as <-. split; [exact Cr|]. lsim. apply M; try (destruct (l_quit s); first [reflexivity|discriminate]); try reflexivity; exact In0.
  - (* PSpawn *) destruct (l_pc s j) eqn:Pj; try discriminate D. injection D as <-. lsim. split; [exact Cr|].
    assert (Ne : i <> j) by congruence.
    eapply ginv_move; [eapply ginv_move; [exact G|rewrite Pj; reflexivity|rewrite Pj; reflexivity|reflexivity|discriminate|exact In0]|..];
      rewrite ?upd_other by exact Ne; rewrite ?P; try reflexivity; try discriminate. exact In0.
  - (* KClose *) injection D as <-. destruct (l_quit s) eqn:Q; lsim; (split; [exact Cr|]); rewrite ?Q; destruct G as [G1 G2].
    + destruct G1 as (k & U & T & Ph). assert (Ne : k <> i) by (intros ->; pose proof (proj2 (U i) eq_refl) as X; rewrite P in X; discriminate X). split.
      * exists k. split; [|split; [right; exact T|]].
        -- intros k'. destruct (Nat.eq_dec k' i) as [->|N']; [rewrite upd_same; split; [discriminate|congruence]|]. rewrite upd_other by exact N'. apply U.
        -- rewrite upd_other by exact Ne. apply phase_upd; [rewrite P; reflexivity|exact Ph].
      * intros k' X. destruct (Nat.eq_dec k' i) as [->|N'].
        -- exists k. split; [exact Ne|right; exact T].
        -- rewrite upd_other in X by exact N'. destruct (G2 k' X) as (k2 & Y & Z). exists k2. split; [exact Y|right; exact Z].
    + destruct G1 as (A & B & U). split.
      * exists i. split; [|split; [left; reflexivity|]].
        -- intros k'. destruct (Nat.eq_dec k' i) as [->|N']; [rewrite upd_same; tauto|]. rewrite upd_other by exact N'. rewrite U. split; [discriminate|congruence].
        -- rewrite upd_same. cbn. auto.
      * intros k' X. destruct (Nat.eq_dec k' i) as [->|N']; [rewrite upd_same in X; discriminate X|].
        rewrite upd_other in X by exact N'. destruct (G2 k' X) as (k2 & Y & Z). exists k2. split; [exact Y|right; exact Z].
  - (* KWait *) assert (Q : l_quit s = true) by (apply (kq_reach s R i); rewrite P; reflexivity). rewrite Q in G.
    injection D as <-. destruct (Z.eqb_spec (l_v s) 0) as [Ev|Ev]; lsim; (split; [exact Cr|]); rewrite Q.
    + eapply ginv_self; [exact G|rewrite P; reflexivity|reflexivity| |apply In1]. rewrite P. cbn. auto.
    + eapply ginv_self; [exact G|rewrite P; reflexivity|reflexivity| |exact In0]. rewrite P. cbn. intros [-> ->]. left.
      split; [reflexivity|]. split; [reflexivity|]. left. destruct Wc as (b & _ & _ & X). lia.
  - (* KBlocked *) assert (Q : l_quit s = true) by (apply (kq_reach s R i); rewrite P; reflexivity). rewrite Q in G.
    destruct (l_sema s) as [|n] eqn:Es; [discriminate D|]. injection D as <-. lsim. split; [exact Cr|]. rewrite Q.
    eapply ginv_self; [exact G|rewrite P; reflexivity|reflexivity| |exact In0]. rewrite P. cbn. intros [(_ & X & _)|(A & B & V)]; [discriminate X|].
    injection B as ->. auto.
  - (* KWoken *) assert (Q : l_quit s = true) by (apply (kq_reach s R i); rewrite P; reflexivity). rewrite Q in G.
    assert (Ph : l_w s = 0%nat /\ l_sema s = 0%nat /\ l_v s = 0%Z).
    { destruct G as [(k & U & _ & Ph) _]. assert (i = k) as <- by (apply U; rewrite P; reflexivity). rewrite P in Ph. exact Ph. }
    destruct Ph as (A & B & V). rewrite A, V in D. cbn [Z.eqb Nat.eqb andb] in D. injection D as <-. lsim. split; [exact Cr|]. rewrite Q.
    eapply ginv_self; [exact G|rewrite P; reflexivity|reflexivity| |apply In1]. cbn. auto.
Qed.

Lemma close_never_panics s : lreach s -> no_late_add (l_trace s) ->
  l_crashed s = false /\ forall k, l_pc s k = KPanicked -> exists k', k' <> k /\ In (k', EQuit) (l_trace s).
Proof. intros R NL. destruct (gi_reach s R NL) as [A [_ B]]. auto. Qed.

(** ** Close can return *)
Definition rank (p : lpc) : nat :=
  match p with ASpawn => 5 | HQuit => 4 | HRead => 3 | HHandle => 3 | HClose => 2 | HDone => 1 | _ => 0 end.
Definition work (s : lst) (n : nat) : Prop :=
  exists busy, NoDup busy /\ (forall j, In j busy <-> serving (l_pc s j) = true) /\ list_sum (map (fun j => rank (l_pc s j)) busy) = n.

Lemma sum_upd pc i p l : ~ In i l -> list_sum (map (fun j => rank (upd pc i p j)) l) = list_sum (map (fun j => rank (pc j)) l).
Proof.
  intros N. f_equal. apply map_ext_in. intros x Hx. rewrite upd_other; [reflexivity|]. intros ->. exact (N Hx).
Qed.

Definition can_return (s : lst) (k : nat) : Prop := exists s', closing s s' /\ l_pc s' k = KReturned.
Lemma can_step s i c s1 k : ldo s i c = Some s1 -> l_pc s i <> TNone -> l_pc s i <> AAccept -> l_pc s i <> AAdd ->
  can_return s1 k -> can_return s k.
Proof. intros D A B F (s' & H & P). exists s'. split; [|exact P]. econstructor; eassumption. Qed.
Lemma no_late_step s i c s1 : ldo s i c = Some s1 -> l_pc s i <> AAdd -> no_late_add (l_trace s) -> no_late_add (l_trace s1).
Proof.
  intros D P NL. destruct (step_next s i c s1 D) as (oe & E & N). rewrite E. destruct oe as [e|]; [|exact NL].
  intros post k pre a T I. destruct post as [|x post]; [destruct I|]. cbn [ev_list app] in T. injection T as <- T.
  destruct I as [X|I]; [|exact (NL _ _ _ _ T I)]. injection X as -> ->. apply P.
  destruct N as [(_ & _ & [[X _]|[[X _]|[X _]]])|(_ & N)]; [exact X|discriminate X|discriminate X|]. inversion N. auto.
Qed.

Lemma return_free s k : lreach s -> no_late_add (l_trace s) -> in_close (l_pc s k) = true -> l_v s = 0%Z -> can_return s k.
Proof.
  intros R NL Ck V. destruct (gi_reach s R NL) as [Cr [G _]]. assert (Q : l_quit s = true) by (apply (kq_reach s R k Ck)).
  rewrite Q in G. destruct G as (k0 & U & _ & Ph). apply U in Ck as Ek. subst k0.
  assert (Wait : forall s0, lreach s0 -> l_crashed s0 = false -> l_pc s0 k = KWoken -> l_v s0 = 0%Z -> l_w s0 = 0%nat -> can_return s0 k).
  { intros s0 R0 C0 P0 V0 W0. eapply (can_step s0 k ChOk); try (rewrite P0; discriminate).
    - unfold ldo. rewrite C0, P0, V0, W0. reflexivity.
    - eexists. split; [apply ClSame|]. cbn. apply upd_same. }
  assert (Blk : forall s0, lreach s0 -> l_crashed s0 = false -> l_pc s0 k = KBlocked -> l_v s0 = 0%Z -> l_w s0 = 0%nat -> l_sema s0 = 1%nat -> can_return s0 k).
  { intros s0 R0 C0 P0 V0 W0 S0.
    assert (D : ldo s0 k ChOk = Some (l_go (l_wg s0 (l_v s0) (l_w s0) 0) k KWoken)) by (unfold ldo; rewrite C0, P0, S0; reflexivity).
    eapply (can_step s0 k ChOk); try (rewrite P0; discriminate); [exact D|].
    apply Wait; lsim; auto. - econstructor; eassumption. - apply upd_same. }
  assert (Rel : forall s0 j w, lreach s0 -> l_crashed s0 = false -> l_pc s0 j = HRel w -> l_pc s0 k = KBlocked -> l_v s0 = 0%Z -> l_w s0 = 1%nat -> l_sema s0 = 0%nat -> can_return s0 k).
  { intros s0 j w R0 C0 P0 K0 V0 W0 S0. assert (w = 1%nat) as ->.
    { destruct (winv_reach s0 R0 C0) as [_ [H _]]. destruct (H j w ltac:(auto)) as (_ & X & _). congruence. }
    assert (D : ldo s0 j ChOk = Some (l_go (l_wg s0 0 0 (l_sema s0 + 1)) j HEnd)) by (unfold ldo; rewrite C0, P0; reflexivity).
    eapply (can_step s0 j ChOk); try (rewrite P0; discriminate); [exact D|]. apply Blk; lsim; auto.
    - econstructor; eassumption. - rewrite upd_other by congruence. exact K0. - rewrite S0. reflexivity. }
  destruct (l_pc s k) eqn:Pk; try discriminate Ck; cbn in Ph.
  - eapply (can_step s k ChOk); try (rewrite Pk; discriminate).
    + unfold ldo. rewrite Cr, Pk, V. reflexivity.
    + eexists. split; [apply ClSame|]. cbn. apply upd_same.
  - destruct Ph as [(A & B & [X|[j X]])|(A & B & _)]; [lia| |apply Blk; auto].
    destruct (l_pc s j) eqn:Pj; try discriminate X; [|eapply Rel; eassumption].
    assert (w = 1%nat) as ->.
    { destruct (winv_reach s R Cr) as [_ [H _]]. destruct (H j w ltac:(auto)) as (_ & Y & _). congruence. }
    assert (D : ldo s j ChOk = Some (l_go s j (HRel 1))) by (unfold ldo; rewrite Cr, Pj, V, A; reflexivity).
    eapply (can_step s j ChOk); try (rewrite Pj; discriminate); [exact D|]. eapply (Rel _ j 1%nat); lsim; auto.
    + econstructor; eassumption. + apply upd_same. + rewrite upd_other by congruence. exact Pk.
  - apply Wait; tauto.
  - eexists. split; [apply ClSame|exact Pk].
Qed.

Lemma return_work n : forall s k, lreach s -> no_late_add (l_trace s) -> in_close (l_pc s k) = true -> work s n -> can_return s k.
Proof.
  induction n as [n IH] using lt_wf_ind. intros s k R NL Ck (busy & ND & H & Sm).
  destruct busy as [|j busy].
  - apply return_free; auto. destruct (gi_reach s R NL) as [Cr _]. destruct (winv_reach s R Cr) as [(b & _ & Hb & V) _].
    destruct b as [|x b]; [exact V|]. exfalso. destruct (proj2 (H x)). apply Hb. left. reflexivity.
  - destruct (gi_reach s R NL) as [Cr _]. assert (Q : l_quit s = true) by (apply (kq_reach s R k Ck)).
    assert (Sj : serving (l_pc s j) = true) by (apply H; left; reflexivity). inversion_clear ND as [|x l Nj ND'].
    assert (Nk : j <> k) by (intros ->; destruct (l_pc s k); discriminate).
    cbn [map list_sum fold_right] in Sm. change (fold_right Nat.add 0%nat) with list_sum in Sm.
    (* one step of [j] to [p] *)
    assert (Go : forall c p s1, ldo s j c = Some s1 -> l_pc s1 = upd (l_pc s) j p -> l_pc s j <> AAdd -> serving p = true -> (rank p < rank (l_pc s j))%nat -> can_return s k).
    { intros c p s1 D E1 Pa Sp Rk. eapply (can_step s j c); try exact D; try (intros X; rewrite X in Sj; discriminate Sj).
      eapply (IH (rank p + list_sum (map (fun j => rank (l_pc s j)) busy))%nat); [lia|econstructor; eassumption|eapply no_late_step; eassumption| |].
      - rewrite E1, upd_other by congruence. exact Ck.
      - exists (j :: busy). split; [constructor; assumption|]. split.
        + intros x. rewrite E1. destruct (Nat.eq_dec x j) as [->|Nx]; [rewrite upd_same, Sp; cbn; tauto|]. rewrite upd_other by exact Nx. apply H.
        + cbn [map list_sum fold_right]. change (fold_right Nat.add 0%nat) with list_sum. rewrite E1, upd_same, sum_upd by exact Nj. reflexivity. }
    assert (Out : forall c p s1, ldo s j c = Some s1 -> l_pc s1 = upd (l_pc s) j p -> l_pc s j <> AAdd -> serving p = false -> (0 < rank (l_pc s j))%nat -> can_return s k).
    { intros c p s1 D E1 Pa Sp Rk. eapply (can_step s j c); try exact D; try (intros X; rewrite X in Sj; discriminate Sj).
      eapply (IH (list_sum (map (fun j => rank (l_pc s j)) busy))%nat); [lia|econstructor; eassumption|eapply no_late_step; eassumption| |].
      - rewrite E1, upd_other by congruence. exact Ck.
      - exists busy. split; [assumption|]. split.
        + intros x. rewrite E1. destruct (Nat.eq_dec x j) as [->|Nx]; [rewrite upd_same, Sp; split; [contradiction|discriminate]|].
          rewrite upd_other by exact Nx. rewrite <- H. cbn. split; [auto|]. intros [X|X]; [congruence|exact X].
        + rewrite E1. apply (f_equal (fun x => x)). apply sum_upd. exact Nj. }
    destruct (l_pc s j) eqn:Pj; try discriminate Sj.
    + (* ASpawn *)
      destruct (finite_reach s R) as [N Hn]. set (j' := Nat.max N (S (Nat.max j (Nat.max k (list_max (j :: busy)))))).
      assert (Pj' : l_pc s j' = TNone) by (apply Hn; unfold j'; lia).
      assert (Nj' : ~ In j' (j :: busy)).
      { intros X. pose proof (proj1 (list_max_le (j :: busy) (list_max (j :: busy))) (le_n _)) as F. rewrite Forall_forall in F. specialize (F _ X). unfold j' in F. lia. }
      set (s1 := l_log (l_go (l_go s j' HQuit) j AQuit) j (ESpawn j')).
      assert (D : ldo s j (ChNew j') = Some s1) by (unfold ldo; rewrite Cr, Pj, Pj'; reflexivity).
      eapply (can_step s j (ChNew j')); try exact D; try (rewrite Pj; discriminate).
      cbn [rank] in Sm.
      eapply (IH (4 + list_sum (map (fun j => rank (l_pc s j)) busy))%nat); [lia|econstructor; eassumption|eapply no_late_step; [exact D|rewrite Pj; discriminate|exact NL]| |].
      * cbn. rewrite !upd_other by (unfold j'; lia || congruence). exact Ck.
      * exists (j' :: busy). split; [constructor; [|assumption]; intros X; apply Nj'; right; exact X|]. split.
        -- intros x. cbn [s1 l_log l_go l_pc]. destruct (Nat.eq_dec x j) as [->|Nx].
           ++ rewrite upd_same. split; [|discriminate]. intros [X|X]; [|contradiction]. exfalso. apply Nj'. left. symmetry. exact X.
           ++ rewrite upd_other by exact Nx. destruct (Nat.eq_dec x j') as [->|Nx']; [rewrite upd_same; cbn; tauto|].
              rewrite upd_other by exact Nx'. rewrite <- H. cbn. split; intros [X|X]; auto; congruence.
        -- cbn [s1 l_log l_go l_pc map list_sum fold_right]. change (fold_right Nat.add 0%nat) with list_sum.
           rewrite sum_upd by exact Nj. rewrite sum_upd by (intros X; apply Nj'; right; exact X).
           rewrite upd_other by (unfold j'; lia). rewrite upd_same. reflexivity.
    + eapply (Go ChOk HClose); [unfold ldo; rewrite Cr, Pj, Q; reflexivity|reflexivity|discriminate|reflexivity|cbn; lia].
    + eapply (Go ChErr HClose); [unfold ldo; rewrite Cr, Pj; reflexivity|reflexivity|discriminate|reflexivity|cbn; lia].
    + eapply (Go ChErr HClose); [unfold ldo; rewrite Cr, Pj; reflexivity|reflexivity|discriminate|reflexivity|cbn; lia].
    + eapply (Go ChOk HDone); [unfold ldo; rewrite Cr, Pj; reflexivity|reflexivity|discriminate|reflexivity|cbn; lia].
    + destruct (winv_reach s R Cr) as [Wc _]. pose proof (counted_pos _ _ j Wc ltac:(rewrite Pj; reflexivity)) as Pos.
      destruct ((0 <? l_v s - 1)%Z || Nat.eqb (l_w s) 0) eqn:B.
      * eapply (Out ChOk HEnd); [unfold ldo; rewrite Cr, Pj; cbv zeta; replace (l_v s - 1 <? 0)%Z with false by (symmetry; apply Z.ltb_ge; lia); rewrite B; reflexivity
          |reflexivity|discriminate|reflexivity|cbn; lia].
      * eapply (Out ChOk (HLast (l_w s))); [unfold ldo; rewrite Cr, Pj; cbv zeta; replace (l_v s - 1 <? 0)%Z with false by (symmetry; apply Z.ltb_ge; lia); rewrite B; reflexivity
          |reflexivity|discriminate|reflexivity|cbn; lia].
Qed.

Lemma close_can_return s k : lreach s -> no_late_add (l_trace s) -> in_close (l_pc s k) = true ->
  exists s', closing s s' /\ l_pc s' k = KReturned.
Proof.
  intros R NL Ck. destruct (gi_reach s R NL) as [Cr _]. destruct (winv_reach s R Cr) as [(b & ND & H & _) _].
  eapply return_work; [exact R|exact NL|exact Ck|]. exists b. split; [exact ND|]. split; [exact H|reflexivity].
Qed.
