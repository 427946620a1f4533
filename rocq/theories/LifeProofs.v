From Verif Require Import Bytes ClientConc Life SpecLife.

Lemma upd_same {A} (f : nat -> A) i v : upd f i v i = v.
Proof. unfold upd. now rewrite Nat.eqb_refl. Qed.
Lemma upd_other {A} (f : nat -> A) i v j : j <> i -> upd f i v j = f j.
Proof. intros H. unfold upd. destruct (Nat.eqb_spec j i); [contradiction|reflexivity]. Qed.

Ltac lsim := cbn [l_go l_log l_wg l_close_quit l_crash l_pc l_quit l_v l_w l_sema l_crashed l_trace] in *.
(** The possible steps of [D : ldo s i c = Some s']. *)
Ltac steps_of D :=
  unfold ldo in D;
  let Cr := fresh "Cr" in
  match type of D with (if ?b then _ else _) = _ => destruct b eqn:Cr; [discriminate D|] end;
  match type of D with match ?p with _ => _ end = _ => let P := fresh "P" in destruct p eqn:P end;
  match type of D with match ?c with _ => _ end = _ => destruct c; try discriminate D | _ => idtac end;
  try discriminate D.

(** ** Counting *)
Definition counted (pc : nat -> lpc) (v : Z) : Prop :=
  exists busy, NoDup busy /\ (forall j, In j busy <-> serving (pc j) = true) /\ v = Z.of_nat (length busy).
Definition released (pc : nat -> lpc) (v : Z) (w : nat) : Prop :=
  (forall j n, pc j = HLast n \/ pc j = HRel n -> v = 0%Z /\ n = w /\ n <> 0%nat) /\
  (forall j j', releasing (pc j) = true -> releasing (pc j') = true -> j = j').

Lemma counted_same pc v i p : counted pc v -> serving p = serving (pc i) -> counted (upd pc i p) v.
Proof.
  intros (b & N & H & E) S. exists b. split; [exact N|]. split; [|exact E]. intros j. destruct (Nat.eq_dec j i) as [->|Ne].
  - rewrite upd_same, S. apply H.
  - rewrite upd_other by exact Ne. apply H.
Qed.
Lemma counted_add pc v i p : counted pc v -> serving (pc i) = false -> serving p = true -> counted (upd pc i p) (v + 1).
Proof.
  intros (b & N & H & E) S1 S2. exists (i :: b). split.
  - constructor; [|exact N]. intros X. apply H in X. congruence.
  - split.
    + intros j. destruct (Nat.eq_dec j i) as [->|Ne].
      * rewrite upd_same. cbn. tauto.
      * rewrite upd_other by exact Ne. cbn. rewrite H. split; [intros [X|X]; [congruence|exact X]|auto].
    + cbn [length]. lia.
Qed.
Lemma counted_sub pc v i p : counted pc v -> serving (pc i) = true -> serving p = false -> counted (upd pc i p) (v - 1).
Proof.
  intros (b & N & H & E) S1 S2. apply H in S1 as I. apply in_split in I as (l1 & l2 & ->).
  exists (l1 ++ l2). split; [eapply NoDup_remove_1; exact N|]. split.
  - intros j. destruct (Nat.eq_dec j i) as [->|Ne].
    + rewrite upd_same, S2. split; [|discriminate]. intros X. exfalso. apply (NoDup_remove_2 _ _ _ N). exact X.
    + rewrite upd_other by exact Ne. rewrite <- H, !in_app_iff. cbn. split; [tauto|]. intros [X|[X|X]]; auto. congruence.
  - rewrite E, !app_length. cbn [length]. lia.
Qed.
Lemma counted_none pc j : counted pc 0 -> serving (pc j) = false.
Proof.
  intros (b & _ & H & E). destruct b; [|cbn in E; lia]. destruct (serving (pc j)) eqn:S; [|reflexivity].
  apply H in S. destruct S.
Qed.
Lemma counted_pos pc v i : counted pc v -> serving (pc i) = true -> (0 < v)%Z.
Proof. intros (b & _ & H & E) S. apply H in S. destruct b; [destruct S|]. cbn in E. lia. Qed.

Lemma released_move pc v w i p : released pc v w -> releasing p = false -> released (upd pc i p) v w.
Proof.
  intros [H1 H2] Rp. split.
  - intros j n X. destruct (Nat.eq_dec j i) as [->|Ne].
    + rewrite upd_same in X. destruct X as [->| ->]; discriminate Rp.
    + rewrite upd_other in X by exact Ne. apply H1 with j, X.
  - intros j j'. destruct (Nat.eq_dec j i) as [->|Ne]; [rewrite upd_same; congruence|]. rewrite upd_other by exact Ne.
    destruct (Nat.eq_dec j' i) as [->|Ne']; [rewrite upd_same; congruence|]. rewrite upd_other by exact Ne'. apply H2.
Qed.
Lemma released_pos pc v w v' w' : released pc v w -> v <> 0%Z -> released pc v' w'.
Proof.
  intros [H1 H2] Hv. split; [|exact H2]. intros j n X. destruct (H1 j n X) as [X1 _]. contradiction.
Qed.
Lemma released_w0 pc v v' w' : released pc v 0 -> released pc v' w'.
Proof.
  intros [H1 H2]. split; [|exact H2]. intros j n X. destruct (H1 j n X) as (_ & -> & X2). contradiction.
Qed.
Lemma released_new pc v w i p : released pc v w -> v <> 0%Z -> w <> 0%nat -> p = HLast w -> released (upd pc i p) 0 w.
Proof.
  intros [H1 H2] Hv Hw ->.
  assert (No : forall j, releasing (pc j) = true -> False).
  { intros j X. destruct (pc j) eqn:P; try discriminate X; destruct (H1 j w0) as [Z _]; auto. }
  split.
  - intros j n X. destruct (Nat.eq_dec j i) as [->|Ne].
    + rewrite upd_same in X. destruct X as [X|X]; [injection X as <-; auto|discriminate].
    + rewrite upd_other in X by exact Ne. exfalso. apply (No j). destruct X as [-> | ->]; reflexivity.
  - intros j j' X Y. destruct (Nat.eq_dec j i) as [->|Ne].
    + destruct (Nat.eq_dec j' i) as [->|Ne']; [reflexivity|]. rewrite upd_other in Y by exact Ne'. destruct (No _ Y).
    + rewrite upd_other in X by exact Ne. destruct (No _ X).
Qed.
Lemma released_step pc v w i n : released pc v w -> pc i = HLast n -> released (upd pc i (HRel n)) v w.
Proof.
  intros [H1 H2] P. split.
  - intros j m X. destruct (Nat.eq_dec j i) as [->|Ne].
    + rewrite upd_same in X. apply (H1 i). destruct X as [X|X]; [discriminate|]. left. congruence.
    + rewrite upd_other in X by exact Ne. apply H1 with j, X.
  - intros j j'. assert (Ri : releasing (pc i) = true) by (rewrite P; reflexivity).
    destruct (Nat.eq_dec j i) as [->|Ne], (Nat.eq_dec j' i) as [->|Ne']; rewrite ?upd_same, ?upd_other by assumption; auto.
Qed.
Lemma released_done pc v w i n p v' w' : released pc v w -> pc i = HRel n -> releasing p = false -> released (upd pc i p) v' w'.
Proof.
  intros [H1 H2] P Rp. assert (Ri : releasing (pc i) = true) by (rewrite P; reflexivity).
  assert (No : forall j, j <> i -> releasing (pc j) = true -> False) by (intros j Ne X; apply Ne, H2; assumption).
  split.
  - intros j m X. destruct (Nat.eq_dec j i) as [->|Ne].
    + rewrite upd_same in X. destruct X as [-> | ->]; discriminate Rp.
    + rewrite upd_other in X by exact Ne. exfalso. apply (No j Ne). destruct X as [-> | ->]; reflexivity.
  - intros j j' X Y. destruct (Nat.eq_dec j i) as [->|Ne].
    + rewrite upd_same in X. congruence.
    + rewrite upd_other in X by exact Ne. destruct (No _ Ne X).
Qed.

Definition winv (s : lst) : Prop := l_crashed s = false -> counted (l_pc s) (l_v s) /\ released (l_pc s) (l_v s) (l_w s).

Lemma winv_step s i c s' : winv s -> ldo s i c = Some s' -> winv s'.
Proof.
  intros W D. unfold winv in W. steps_of D; destruct (W eq_refl) as [Wc Wr]; clear W.
  all: try (injection D as <-; intros _; lsim; split; [apply counted_same; [exact Wc|rewrite P; reflexivity]|apply released_move; [exact Wr|reflexivity]]; fail).
  all: try (injection D as <-; intros _; destruct (l_quit s); lsim;
    (split; [apply counted_same; [exact Wc|rewrite P; reflexivity]|apply released_move; [exact Wr|reflexivity]]); fail).
  - (* AAdd *) injection D as <-. intros Cr'. destruct (Nat.eqb_spec (l_w s) 0) as [E|E]; cbn [negb andb] in *.
    + lsim. split; [apply counted_add; [exact Wc|rewrite P; reflexivity|reflexivity]|].
      apply released_move; [|reflexivity]. rewrite E in *. apply (released_w0 _ (l_v s)), Wr.
    + destruct (Z.eqb_spec (l_v s + 1) 1) as [E1|E1]; [discriminate Cr'|]. lsim.
      split; [apply counted_add; [exact Wc|rewrite P; reflexivity|reflexivity]|].
      apply released_move; [|reflexivity]. apply (released_pos _ (l_v s) (l_w s)); [exact Wr|lia].
  - (* ASpawn *) destruct (l_pc s j) eqn:Pj; try discriminate D. injection D as <-. intros _. lsim.
    assert (Ne : j <> i) by congruence. split.
    + replace (l_v s) with (l_v s + 1 - 1)%Z by lia. apply counted_sub.
      * apply counted_add; [exact Wc|rewrite Pj; reflexivity|reflexivity].
      * rewrite upd_other by congruence. rewrite P. reflexivity.
      * reflexivity.
    + apply released_move; [apply released_move; [exact Wr|reflexivity]|reflexivity].
  - (* HDone *) injection D as <-. intros Cr'. pose proof (counted_pos _ _ i Wc ltac:(rewrite P; reflexivity)) as Pos.
    destruct (Z.ltb_spec (l_v s - 1) 0) as [L|L]; [lia|]. destruct (Z.ltb_spec 0 (l_v s - 1)) as [G|G]; cbn [orb] in *.
    + lsim. split; [apply counted_sub; [exact Wc|rewrite P; reflexivity|reflexivity]|].
      apply released_move; [|reflexivity]. apply (released_pos _ (l_v s) (l_w s)); [exact Wr|lia].
    + destruct (Nat.eqb_spec (l_w s) 0) as [E|E]; lsim.
      * split; [apply counted_sub; [exact Wc|rewrite P; reflexivity|reflexivity]|].
        apply released_move; [|reflexivity]. rewrite E in *. apply (released_w0 _ (l_v s)), Wr.
      * split; [apply counted_sub; [exact Wc|rewrite P; reflexivity|reflexivity]|].
        replace (l_v s - 1)%Z with 0%Z by lia. eapply released_new; [exact Wr|lia|exact E|reflexivity].
  - (* HLast *) destruct (proj1 Wr i w ltac:(auto)) as (Ev & -> & Ew). rewrite Ev, Z.eqb_refl, Nat.eqb_refl in D. cbn [andb] in D.
    injection D as <-. intros _. lsim. rewrite Ev in *. split; [apply counted_same; [exact Wc|rewrite P; reflexivity]|].
    apply released_step; assumption.
  - (* HRel *) destruct (proj1 Wr i w ltac:(auto)) as (Ev & -> & Ew). injection D as <-. intros _. lsim. rewrite Ev in *.
    split; [apply counted_same; [exact Wc|rewrite P; reflexivity]|]. eapply released_done; [exact Wr|exact P|reflexivity].
  - (* PSpawn *) destruct (l_pc s j) eqn:Pj; try discriminate D. injection D as <-. intros _. lsim.
    assert (Ne : j <> i) by congruence. split.
    + apply counted_same; [apply counted_same; [exact Wc|rewrite Pj; reflexivity]|]. rewrite upd_other by congruence. rewrite P. reflexivity.
    + apply released_move; [apply released_move; [exact Wr|reflexivity]|reflexivity].
  - (* KWait *) injection D as <-. intros _. destruct (Z.eqb_spec (l_v s) 0) as [E|E]; lsim.
    + split; [apply counted_same; [exact Wc|rewrite P; reflexivity]|apply released_move; [exact Wr|reflexivity]].
    + split; [apply counted_same; [exact Wc|rewrite P; reflexivity]|].
      apply released_move; [|reflexivity]. apply (released_pos _ (l_v s) (l_w s)); [exact Wr|exact E].
  - (* KBlocked *) destruct (l_sema s); [discriminate D|]. injection D as <-. intros _. lsim.
    split; [apply counted_same; [exact Wc|rewrite P; reflexivity]|apply released_move; [exact Wr|reflexivity]].
  - (* KWoken *) injection D as <-. intros _. destruct ((l_v s =? 0)%Z && Nat.eqb (l_w s) 0); lsim;
      (split; [apply counted_same; [exact Wc|rewrite P; reflexivity]|apply released_move; [exact Wr|reflexivity]]).
Qed.

Lemma winv_reach s : lreach s -> winv s.
Proof.
  induction 1; [|eapply winv_step; eassumption]. intros _. split.
  - exists []. split; [constructor|]. split; [|reflexivity]. intros j. cbn. split; [tauto|discriminate].
  - split; [intros j n [X|X]; discriminate X|intros j j' X; discriminate X].
Qed.

(** ** After Close returned *)
Definition is_tcp_work (e : lev) : bool := match e with ERead | EHandle => true | _ => false end.
Definition at_work (p : lpc) : bool := match p with HRead | HHandle => true | _ => false end.
Lemma at_work_serving p : at_work p = true -> serving p = true.
Proof. destruct p; try discriminate; reflexivity. Qed.

Definition quiet (s : lst) : Prop := l_quit s = true /\ forall j, at_work (l_pc s j) = false.
Lemma quiet_step s i c s' : quiet s -> ldo s i c = Some s' -> quiet s'.
Proof.
  intros [Q H] D.
  assert (G : forall p, at_work p = false -> forall j, at_work (upd (l_pc s) i p j) = false).
  { intros p Hp j. unfold upd. destruct (Nat.eqb j i); [exact Hp|apply H]. }
  assert (G2 : forall p j p', at_work p = false -> at_work p' = false -> forall j', at_work (upd (upd (l_pc s) j p') i p j') = false).
  { intros p j p' Hp Hp' j'. unfold upd. destruct (Nat.eqb j' i); [exact Hp|]. destruct (Nat.eqb j' j); [exact Hp'|apply H]. }
  pose proof (H i) as Hi. steps_of D; try discriminate Hi.
  all: try (injection D as <-; split; lsim; [exact Q|apply G; reflexivity]; fail).
  all: try (rewrite Q in D; injection D as <-; split; lsim; [exact Q|apply G; reflexivity]; fail).
  - injection D as <-. destruct (_ && _); split; lsim; [exact Q|exact H|exact Q|apply G; reflexivity].
  - destruct (l_pc s j); try discriminate D. injection D as <-. split; lsim; [exact Q|apply G2; reflexivity].
  - injection D as <-. destruct (_ <? _)%Z; [split; lsim; [exact Q|exact H]|]. destruct (_ || _); split; lsim; try exact Q; apply G; reflexivity.
  - injection D as <-. destruct (_ && _); split; lsim; [exact Q|apply G; reflexivity|exact Q|exact H].
  - destruct (l_pc s j); try discriminate D. injection D as <-. split; lsim; [exact Q|apply G2; reflexivity].
  - injection D as <-. destruct (_ =? _)%Z; split; lsim; try exact Q; apply G; reflexivity.
  - destruct (l_sema s); [discriminate D|]. injection D as <-. split; lsim; [exact Q|apply G; reflexivity].
  - injection D as <-. destruct (_ && _); split; lsim; try exact Q; apply G; reflexivity.
Qed.

(** Events are only added, and work only by goroutines at work. *)
Lemma trace_step s i c s' : ldo s i c = Some s' ->
  l_trace s' = l_trace s \/ exists e, l_trace s' = (i, e) :: l_trace s /\ (is_tcp_work e = true -> at_work (l_pc s i) = true) /\
    (e = EReturned -> l_v s = 0%Z /\ (l_pc s i = KWait \/ l_pc s i = KWoken)).
Proof.
  intros D. steps_of D.
  all: try (injection D as <-; lsim; auto; fail).
  all: try (injection D as <-; lsim; right; eexists; split; [reflexivity|split; [intros X; first [discriminate X|reflexivity]|intros X; discriminate X]]; fail).
  all: try (destruct (l_pc s j); try discriminate D; injection D as <-; lsim; auto; right; eexists; split; [reflexivity|split; [discriminate|discriminate]]; fail).
  all: try (injection D as <-; repeat match goal with |- context [if ?b then _ else _] => destruct b end; lsim; auto; fail).
  - injection D as <-. right. exists EAdd. destruct (_ && _); lsim; (split; [reflexivity|split; discriminate]).
  - destruct (l_pc s j); try discriminate D. injection D as <-. left. reflexivity.
  - injection D as <-. right. destruct (l_quit s); lsim; eexists; (split; [reflexivity|split; discriminate]).
  - injection D as <-. destruct (Z.eqb_spec (l_v s) 0); lsim; [|auto]. right. eexists. split; [reflexivity|]. split; [discriminate|auto].
  - destruct (l_sema s); [discriminate D|]. injection D as <-. auto.
  - injection D as <-. right. destruct (Z.eqb_spec (l_v s) 0); cbn [andb]; [|lsim; eexists; (split; [reflexivity|split; discriminate])].
    destruct (Nat.eqb (l_w s) 0); lsim; eexists; (split; [reflexivity|split; [discriminate|try discriminate; auto]]).
Qed.

(** Who is in Close closed the channel. *)
Definition kq (s : lst) : Prop := forall k, in_close (l_pc s k) = true -> l_quit s = true.
Lemma kq_reach s : lreach s -> kq s.
Proof.
  induction 1 as [|s i c s' R IH D]; [intros k X; discriminate X|].
  assert (G : forall p, in_close p = false \/ in_close p = in_close (l_pc s i) -> forall k, in_close (upd (l_pc s) i p k) = true -> l_quit s = true).
  { intros p Hp k. unfold upd. destruct (Nat.eqb_spec k i) as [->|_]; [|apply IH]. intros X. destruct Hp as [Y|Y]; [congruence|]. apply (IH i). congruence. }
  intros k. steps_of D.
  all: try (injection D as <-; lsim; apply G; first [left; reflexivity|right; reflexivity]; fail).
  all: try (injection D as <-; repeat match goal with |- context [if ?b then _ else _] => destruct b end; lsim;
     first [apply IH | apply G; first [left; reflexivity|right; reflexivity]]; fail).
  all: try (injection D as <-; lsim; apply G; left; destruct (l_quit s); reflexivity).
  - destruct (l_pc s j) eqn:Pj; try discriminate D. injection D as <-. lsim. unfold upd at 1. destruct (Nat.eqb k i); [discriminate|].
    unfold upd. destruct (Nat.eqb k j); [discriminate|apply IH].
  - destruct (l_pc s j) eqn:Pj; try discriminate D. injection D as <-. lsim. unfold upd at 1. destruct (Nat.eqb k i); [discriminate|].
    unfold upd. destruct (Nat.eqb k j); [discriminate|apply IH].
  - injection D as <-. destruct (l_quit s) eqn:Q; lsim; auto.
  - destruct (l_sema s); [discriminate D|]. injection D as <-. lsim. apply G. right. reflexivity.
Qed.

Definition done_inv (s : lst) : Prop := forall post k pre, l_trace s = post ++ (k, EReturned) :: pre ->
  quiet s /\ forall j e, In (j, e) post -> is_tcp_work e = false.
Lemma done_reach s : lreach s -> done_inv s.
Proof.
  induction 1 as [|s i c s' R IH D]; intros post k pre T; [destruct post; discriminate T|].
  destruct (trace_step s i c s' D) as [E|(e & E & Hw & Hr)].
  - rewrite E in T. destruct (IH _ _ _ T) as [Q N]. split; [eapply quiet_step; eassumption|exact N].
  - rewrite E in T. destruct post as [|x post]; cbn [app] in T.
    + injection T as <- -> <-. split; [|intros j e []]. destruct (Hr eq_refl) as [V Pk].
      eapply quiet_step; [|exact D]. split.
      * apply (kq_reach s R i). destruct Pk as [-> | ->]; reflexivity.
      * intros j. destruct (at_work (l_pc s j)) eqn:A; [|reflexivity]. apply at_work_serving in A.
        assert (Cr : l_crashed s = false) by (unfold ldo in D; destruct (l_crashed s); [discriminate|reflexivity]).
        destruct (winv_reach s R Cr) as [W _]. rewrite V in W. rewrite (counted_none _ j W) in A. discriminate A.
    + injection T as <- T. destruct (IH _ _ _ T) as [Q N]. split; [eapply quiet_step; eassumption|].
      intros j e' [X|X]; [|eapply N; exact X]. injection X as <- <-. destruct (is_tcp_work e) eqn:We; [|reflexivity].
      rewrite (proj2 Q i) in Hw. discriminate (Hw eq_refl).
Qed.
Lemma nothing_after_close s post k pre : lreach s -> l_trace s = post ++ (k, EReturned) :: pre ->
  forall j, ~ In (j, ERead) post /\ ~ In (j, EHandle) post /\ l_pc s j <> HHandle.
Proof.
  intros R T j. destruct (done_reach s R _ _ _ T) as [[_ Q] N]. split; [|split].
  - intros X. discriminate (N _ _ X).
  - intros X. discriminate (N _ _ X).
  - intros X. specialize (Q j). rewrite X in Q. discriminate Q.
Qed.
