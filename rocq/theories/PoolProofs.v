From Verif Require Import Bytes ClientConc Pool SpecPool.

(** * Closing several connections *)
Lemma shut_all_lock l : forall s, p_lock (shut_all s l) = p_lock s. Proof. induction l; intros s; [reflexivity|]; cbn; apply (IHl (shut s a)). Qed.
Lemma shut_all_idle l : forall s, p_idle (shut_all s l) = p_idle s. Proof. induction l; intros s; [reflexivity|]; cbn; apply (IHl (shut s a)). Qed.
Lemma shut_all_num l : forall s, p_num (shut_all s l) = p_num s. Proof. induction l; intros s; [reflexivity|]; cbn; apply (IHl (shut s a)). Qed.
Lemma shut_all_closed l : forall s, p_closed (shut_all s l) = p_closed s. Proof. induction l; intros s; [reflexivity|]; cbn; apply (IHl (shut s a)). Qed.
Lemma shut_all_session l : forall s, p_session (shut_all s l) = p_session s. Proof. induction l; intros s; [reflexivity|]; cbn; apply (IHl (shut s a)). Qed.
Lemma shut_all_next l : forall s, p_next (shut_all s l) = p_next s. Proof. induction l; intros s; [reflexivity|]; cbn; apply (IHl (shut s a)). Qed.
Lemma shut_all_cs l : forall s, cl_session (shut_all s l) = cl_session s. Proof. induction l; intros s; [reflexivity|]; cbn; apply (IHl (shut s a)). Qed.
Lemma shut_all_pc l : forall s, p_pc (shut_all s l) = p_pc s. Proof. induction l; intros s; [reflexivity|]; cbn; apply (IHl (shut s a)). Qed.
Lemma shut_all_trace l : forall s, p_trace (shut_all s l) = p_trace s. Proof. induction l; intros s; [reflexivity|]; cbn; apply (IHl (shut s a)). Qed.
Lemma shut_all_open l : forall s c, cl_open (shut_all s l) c = true <-> cl_open s c = true /\ ~ In c l.
Proof.
  induction l as [|x l IH]; intros s c; cbn; [tauto|]. fold (shut_all (shut s x) l). rewrite IH. cbn.
  unfold upd. destruct (Nat.eqb_spec c x); split; intuition congruence.
Qed.
Lemma dialled_fields s : p_lock (dialled s) = p_lock s /\ p_idle (dialled s) = p_idle s /\ p_num (dialled s) = (p_num s + 1)%Z /\
  p_closed (dialled s) = p_closed s /\ p_next (dialled s) = S (p_next s) /\ p_pc (dialled s) = p_pc s /\
  p_trace (dialled s) = p_trace s /\ cl_open (dialled s) = upd (cl_open s) (p_next s) true.
Proof. unfold dialled. destruct (p_session s); repeat split. Qed.

Ltac sim := cbn [p_to set_lock set_idle set_num set_buf shut emptied p_lock p_idle p_num p_closed p_session p_next p_nexts
  cl_session cl_open cl_buf p_pc p_trace map app] in *; rewrite ?shut_all_lock, ?shut_all_idle, ?shut_all_num, ?shut_all_closed,
  ?shut_all_session, ?shut_all_next, ?shut_all_cs, ?shut_all_pc, ?shut_all_trace in *.

Definition ptr (i : nat) (ev : list pev) (tr : list (nat * pev)) : list (nat * pev) := map (fun e => (i, e)) ev ++ tr.

Lemma step_trace mi mo s i s' : pstep mi mo s i s' -> exists ev, p_trace s' = ptr i ev (p_trace s).
Proof.
  unfold ptr. destruct 1; sim; try (eexists; reflexivity); try (exists []; reflexivity);
    try (eexists (_ :: _); reflexivity); try (eexists [_]; reflexivity); try (eexists [_; _]; reflexivity).
  - destruct (dialled_fields s) as (_ & _ & _ & _ & _ & _ & -> & _). eexists [_; _]. reflexivity.
  - exists (EPanic :: EPoolClosed :: shut_events (p_idle s)). reflexivity.
Qed.

Lemma in_ptr i j e ev tr : In (j, e) (ptr i ev tr) <-> (j = i /\ In e ev) \/ In (j, e) tr.
Proof.
  unfold ptr. rewrite in_app_iff, in_map_iff. split.
  - intros [(x & [= <- <-] & H)|H]; auto.
  - intros [[-> H]|H]; [left; exists e; auto|auto].
Qed.
Lemma in_shut_events e l : In e (shut_events l) <-> exists c, e = EShut c /\ In c l.
Proof.
  unfold shut_events. rewrite <- in_rev, in_map_iff. split.
  - intros (c & <- & H). eauto.
  - intros (c & -> & H). eauto.
Qed.
Lemma no_event_ptr i ev tr bad : no_event (ptr i ev tr) bad -> no_event tr bad.
Proof. intros H j e I. apply (H j e), in_ptr. auto. Qed.

(** * Ownership, abstractly: every client is idle, in the hand of a goroutine
    inside the pool, or with the user. *)
Record own := { w_idle : list nat; w_hand : nat -> option nat; w_user : nat -> bool; w_open : nat -> bool;
                w_next : nat; w_lost : bool }.

Inductive omove (o o' : own) : Prop :=
| MSame :
    w_idle o' = w_idle o -> (forall j, w_hand o' j = w_hand o j) -> (forall c, w_user o' c = w_user o c) ->
    (forall c, w_open o' c = true -> w_open o c = true) -> w_next o' = w_next o -> w_lost o' = w_lost o -> omove o o'
| MGive i c : (* user to hand *)
    w_user o c = true -> w_hand o i = None ->
    w_idle o' = w_idle o -> (forall j, w_hand o' j = upd (w_hand o) i (Some c) j) ->
    (forall d, w_user o' d = upd (w_user o) c false d) ->
    (forall c, w_open o' c = w_open o c) -> w_next o' = w_next o -> w_lost o' = w_lost o -> omove o o'
| MGot i c : (* hand to user *)
    w_hand o i = Some c ->
    w_idle o' = w_idle o -> (forall j, w_hand o' j = upd (w_hand o) i None j) ->
    (forall d, w_user o' d = upd (w_user o) c true d) ->
    (forall c, w_open o' c = w_open o c) -> w_next o' = w_next o -> w_lost o' = w_lost o -> omove o o'
| MPop i c : (* idle to hand *)
    w_idle o = c :: w_idle o' -> w_hand o i = None ->
    (forall j, w_hand o' j = upd (w_hand o) i (Some c) j) -> (forall d, w_user o' d = w_user o d) ->
    (forall c, w_open o' c = w_open o c) -> w_next o' = w_next o -> w_lost o' = w_lost o -> omove o o'
| MPass i j c : (* hand to hand *)
    w_hand o i = Some c -> w_hand o j = None ->
    w_idle o' = w_idle o -> (forall k, w_hand o' k = upd (upd (w_hand o) j (Some c)) i None k) ->
    (forall d, w_user o' d = w_user o d) ->
    (forall c, w_open o' c = w_open o c) -> w_next o' = w_next o -> w_lost o' = w_lost o -> omove o o'
| MShut i c : (* hand to nowhere, closed *)
    w_hand o i = Some c ->
    w_idle o' = w_idle o -> (forall j, w_hand o' j = upd (w_hand o) i None j) ->
    (forall d, w_user o' d = w_user o d) ->
    (forall d, w_open o' d = upd (w_open o) c false d) -> w_next o' = w_next o -> w_lost o' = w_lost o -> omove o o'
| MKeep i c : (* hand to idle *)
    w_hand o i = Some c ->
    w_idle o' = w_idle o ++ [c] -> (forall j, w_hand o' j = upd (w_hand o) i None j) ->
    (forall d, w_user o' d = w_user o d) ->
    (forall d, w_open o' d = w_open o d) -> w_next o' = w_next o -> w_lost o' = w_lost o -> omove o o'
| MNew : (* a new one, to the user *)
    w_idle o' = w_idle o -> (forall j, w_hand o' j = w_hand o j) ->
    (forall d, w_user o' d = upd (w_user o) (w_next o) true d) ->
    (forall d, w_open o' d = upd (w_open o) (w_next o) true d) -> w_next o' = S (w_next o) -> w_lost o' = w_lost o -> omove o o'
| MEmpty : (* all idle ones closed *)
    w_idle o' = [] -> (forall j, w_hand o' j = w_hand o j) -> (forall c, w_user o' c = w_user o c) ->
    (forall c, w_open o' c = true -> w_open o c = true /\ ~ In c (w_idle o)) -> w_next o' = w_next o ->
    (w_lost o = true -> w_lost o' = true) -> omove o o'
| MLost i : (* a panic: what was in the hand is lost *)
    w_idle o' = w_idle o -> (forall j, w_hand o' j = upd (w_hand o) i None j) ->
    (forall c, w_user o' c = w_user o c) -> (forall c, w_open o' c = w_open o c) -> w_next o' = w_next o ->
    w_lost o' = true -> omove o o'.

Record oinv (o : own) : Prop := {
  oi_idle_known : forall c, In c (w_idle o) -> (c < w_next o)%nat;
  oi_hand_known : forall i c, w_hand o i = Some c -> (c < w_next o)%nat;
  oi_user_known : forall c, w_user o c = true -> (c < w_next o)%nat;
  oi_open_known : forall c, w_open o c = true -> (c < w_next o)%nat;
  oi_nodup : NoDup (w_idle o);
  oi_idle_user : forall c, In c (w_idle o) -> w_user o c = false;
  oi_idle_hand : forall c i, In c (w_idle o) -> w_hand o i <> Some c;
  oi_hand_user : forall i c, w_hand o i = Some c -> w_user o c = false;
  oi_hand_hand : forall i j c, w_hand o i = Some c -> w_hand o j = Some c -> i = j;
  oi_place : forall c, w_open o c = true -> w_lost o = false ->
    w_user o c = true \/ In c (w_idle o) \/ exists i, w_hand o i = Some c }.

Lemma omove_inv o o' : oinv o -> omove o o' -> oinv o'.
Proof.
  intros [K1 K2 K3 K4 ND IU IH HU HH PL] M.
  destruct M as [Ei Eh Eu Eo En El|i c Hu Hh Ei Eh Eu Eo En El|i c Hh Ei Eh Eu Eo En El|i c Ei Hh Eh Eu Eo En El
    |i j c Hh Hj Ei Eh Eu Eo En El|i c Hh Ei Eh Eu Eo En El|i c Hh Ei Eh Eu Eo En El|Ei Eh Eu Eo En El|Ei Eh Eu Eo En El
    |i Ei Eh Eu Eo En El].
  - constructor; rewrite ?Ei, ?En.
    + exact K1.
    + intros i c. rewrite Eh. apply K2.
    + intros c. rewrite Eu. apply K3.
    + intros c H. apply K4, Eo, H.
    + exact ND.
    + intros c H. rewrite Eu. auto.
    + intros c i H. rewrite Eh. auto.
    + intros i c. rewrite Eh, Eu. apply HU.
    + intros i j c. rewrite !Eh. apply HH.
    + intros c H L. rewrite El in L. rewrite Eu. destruct (PL c (Eo c H) L) as [?|[?|[i ?]]]; auto.
      right. right. exists i. rewrite Eh. assumption.
  - constructor; rewrite ?Ei, ?En.
    + exact K1.
    + intros j d. rewrite Eh. unfold upd. destruct (Nat.eqb j i); [intros [= <-]; auto|apply K2].
    + intros d. rewrite Eu. unfold upd. destruct (Nat.eqb d c); [discriminate|apply K3].
    + intros d. rewrite Eo. apply K4.
    + exact ND.
    + intros d H. rewrite Eu. unfold upd. destruct (Nat.eqb d c); auto.
    + intros d j H. rewrite Eh. unfold upd. destruct (Nat.eqb j i); [|auto]. intros [= ->]. apply IU in H. congruence.
    + intros j d. rewrite Eh, Eu. unfold upd. destruct (Nat.eqb_spec d c) as [->|]; [auto|].
      destruct (Nat.eqb j i); [intros [= <-]; congruence|apply HU].
    + intros j k d. rewrite !Eh. unfold upd. destruct (Nat.eqb_spec j i), (Nat.eqb_spec k i); subst; auto.
      * intros [= <-] H. apply HU in H. congruence.
      * intros H [= <-]. apply HU in H. congruence.
      * apply HH.
    + intros d H L. rewrite Eo in H. rewrite El in L. rewrite Eu. unfold upd. destruct (Nat.eqb_spec d c) as [->|Nd].
      * right. right. exists i. rewrite Eh. unfold upd. rewrite Nat.eqb_refl. reflexivity.
      * destruct (PL d H L) as [?|[?|[j Hj]]]; auto. right. right. exists j. rewrite Eh. unfold upd.
        destruct (Nat.eqb_spec j i) as [->|]; [congruence|exact Hj].
  - assert (Hc : w_user o c = false) by (apply (HU i), Hh).
    constructor; rewrite ?Ei, ?En.
    + exact K1.
    + intros j d. rewrite Eh. unfold upd. destruct (Nat.eqb j i); [discriminate|apply K2].
    + intros d. rewrite Eu. unfold upd. destruct (Nat.eqb_spec d c) as [->|]; [intros _; apply (K2 i c Hh)|apply K3].
    + intros d. rewrite Eo. apply K4.
    + exact ND.
    + intros d H. rewrite Eu. unfold upd. destruct (Nat.eqb_spec d c) as [->|]; [destruct (IH c i H Hh)|auto].
    + intros d j H. rewrite Eh. unfold upd. destruct (Nat.eqb j i); [discriminate|auto].
    + intros j d. rewrite Eh, Eu. unfold upd. destruct (Nat.eqb_spec j i) as [->|Nj]; [discriminate|]. intros H.
      destruct (Nat.eqb_spec d c) as [->|]; [destruct Nj; apply (HH j i c H Hh)|apply (HU j d H)].
    + intros j k d. rewrite !Eh. unfold upd. destruct (Nat.eqb_spec j i), (Nat.eqb_spec k i); subst; auto; try discriminate.
      apply HH.
    + intros d H L. rewrite Eo in H. rewrite El in L. rewrite Eu. unfold upd. destruct (Nat.eqb_spec d c) as [->|Nd]; [auto|].
      destruct (PL d H L) as [?|[?|[j Hj]]]; auto. right. right. exists j. rewrite Eh. unfold upd.
      destruct (Nat.eqb_spec j i) as [->|]; [congruence|exact Hj].
  - assert (Hin : In c (w_idle o)) by (rewrite Ei; left; reflexivity).
    assert (Hsub : forall d, In d (w_idle o') -> In d (w_idle o)) by (intros d H; rewrite Ei; right; exact H).
    rewrite Ei in ND. inversion ND as [|? ? Hni ND']; subst.
    constructor; rewrite ?En.
    + auto.
    + intros j d. rewrite Eh. unfold upd. destruct (Nat.eqb j i); [intros [= <-]; auto|apply K2].
    + intros d. rewrite Eu. apply K3.
    + intros d. rewrite Eo. apply K4.
    + exact ND'.
    + intros d H. rewrite Eu. auto.
    + intros d j H. rewrite Eh. unfold upd. destruct (Nat.eqb j i); [|auto]. intros [= ->]. contradiction.
    + intros j d. rewrite Eh, Eu. unfold upd. destruct (Nat.eqb j i); [intros [= <-]; auto|apply HU].
    + intros j k d. rewrite !Eh. unfold upd. destruct (Nat.eqb_spec j i), (Nat.eqb_spec k i); subst; auto.
      * intros [= <-] H. destruct (IH c k Hin H).
      * intros H [= <-]. destruct (IH c j Hin H).
      * apply HH.
    + intros d H L. rewrite Eo in H. rewrite El in L. rewrite Eu.
      destruct (PL d H L) as [?|[I|[j Hj]]]; auto.
      * rewrite Ei in I. destruct I as [<-|I]; [|auto]. right. right. exists i. rewrite Eh. unfold upd. rewrite Nat.eqb_refl. reflexivity.
      * right. right. exists j. rewrite Eh. unfold upd. destruct (Nat.eqb_spec j i) as [->|]; [congruence|exact Hj].
  - assert (Nij : i <> j) by congruence.
    assert (Hnew : forall k d, w_hand o' k = Some d -> (k = j /\ d = c) \/ (k <> i /\ w_hand o k = Some d)).
    { intros k d. rewrite Eh. unfold upd. destruct (Nat.eqb_spec k i); [discriminate|].
      destruct (Nat.eqb_spec k j) as [->|]; [intros [= <-]; auto|auto]. }
    constructor; rewrite ?Ei, ?En.
    + exact K1.
    + intros k d H. apply Hnew in H as [[-> ->]|[_ H]]; [apply (K2 i c Hh)|apply (K2 k d H)].
    + intros d. rewrite Eu. apply K3.
    + intros d. rewrite Eo. apply K4.
    + exact ND.
    + intros d H. rewrite Eu. auto.
    + intros d k H E. apply Hnew in E as [[-> ->]|[_ E]]; [apply (IH c i H Hh)|apply (IH d k H E)].
    + intros k d H. rewrite Eu. apply Hnew in H as [[-> ->]|[_ H]]; [apply (HU i c Hh)|apply (HU k d H)].
    + intros k l d H H'. apply Hnew in H as [[-> ->]|[N1 H]]; apply Hnew in H' as [[-> E]|[N2 H']]; auto.
      * destruct N2. apply (HH l i c H' Hh).
      * subst d. destruct N1. apply (HH k i c H Hh).
      * apply (HH k l d H H').
    + intros d H L. rewrite Eo in H. rewrite El in L. rewrite Eu. destruct (PL d H L) as [?|[?|[k Hk]]]; auto.
      right. right. destruct (Nat.eq_dec k i) as [->|Nk].
      * exists j. rewrite Eh. unfold upd. destruct (Nat.eqb_spec j i); [congruence|]. rewrite Nat.eqb_refl. congruence.
      * exists k. rewrite Eh. unfold upd. destruct (Nat.eqb_spec k i); [congruence|].
        destruct (Nat.eqb_spec k j) as [->|]; [congruence|exact Hk].
  - constructor; rewrite ?Ei, ?En.
    + exact K1.
    + intros j d. rewrite Eh. unfold upd. destruct (Nat.eqb j i); [discriminate|apply K2].
    + intros d. rewrite Eu. apply K3.
    + intros d. rewrite Eo. unfold upd. destruct (Nat.eqb d c); [discriminate|apply K4].
    + exact ND.
    + intros d H. rewrite Eu. auto.
    + intros d j H. rewrite Eh. unfold upd. destruct (Nat.eqb j i); [discriminate|auto].
    + intros j d. rewrite Eh, Eu. unfold upd. destruct (Nat.eqb j i); [discriminate|apply HU].
    + intros j k d. rewrite !Eh. unfold upd. destruct (Nat.eqb_spec j i), (Nat.eqb_spec k i); subst; auto; try discriminate.
      apply HH.
    + intros d. rewrite Eo. unfold upd. destruct (Nat.eqb_spec d c) as [->|Nd]; [discriminate|]. intros H L.
      rewrite El in L. rewrite Eu. destruct (PL d H L) as [?|[?|[j Hj]]]; auto. right. right. exists j. rewrite Eh. unfold upd.
      destruct (Nat.eqb_spec j i) as [->|]; [congruence|exact Hj].
  - constructor; rewrite ?En.
    + intros d. rewrite Ei. intros H. apply in_app_or in H as [H|[<-|[]]]; [auto|apply (K2 i c Hh)].
    + intros j d. rewrite Eh. unfold upd. destruct (Nat.eqb j i); [discriminate|apply K2].
    + intros d. rewrite Eu. apply K3.
    + intros d. rewrite Eo. apply K4.
    + rewrite Ei.
      assert (A : forall l, NoDup l -> ~ In c l -> NoDup (l ++ [c])).
      { intros l NDl. induction NDl as [|x l Hx NDl IHl]; intros Hn; cbn; [repeat constructor; auto|].
        constructor; [|apply IHl; intros I; apply Hn; right; exact I].
        intros I. apply in_app_or in I as [I|[<-|[]]]; [contradiction|apply Hn; left; reflexivity]. }
      apply A; [exact ND|]. intros I. exact (IH c i I Hh).
    + intros d. rewrite Ei, Eu. intros H. apply in_app_or in H as [H|[<-|[]]]; [auto|apply (HU i c Hh)].
    + intros d j. rewrite Ei, Eh. unfold upd. intros H. destruct (Nat.eqb_spec j i) as [->|Nj]; [discriminate|].
      apply in_app_or in H as [H|[<-|[]]]; [auto|]. intros E. apply Nj, (HH j i c E Hh).
    + intros j d. rewrite Eh, Eu. unfold upd. destruct (Nat.eqb j i); [discriminate|apply HU].
    + intros j k d. rewrite !Eh. unfold upd. destruct (Nat.eqb_spec j i), (Nat.eqb_spec k i); subst; auto; try discriminate.
      apply HH.
    + intros d H L. rewrite Eo in H. rewrite El in L. rewrite Eu, Ei. destruct (PL d H L) as [?|[?|[j Hj]]]; auto.
      * right. left. apply in_or_app. auto.
      * destruct (Nat.eq_dec j i) as [->|Nj].
        -- right. left. apply in_or_app. right. left. congruence.
        -- right. right. exists j. rewrite Eh. unfold upd. destruct (Nat.eqb_spec j i); [congruence|exact Hj].
  - constructor; rewrite ?Ei, ?En.
    + intros d H. apply K1 in H. lia.
    + intros j d. rewrite Eh. intros H. apply K2 in H. lia.
    + intros d. rewrite Eu. unfold upd. destruct (Nat.eqb_spec d (w_next o)); [lia|]. intros H. apply K3 in H. lia.
    + intros d. rewrite Eo. unfold upd. destruct (Nat.eqb_spec d (w_next o)); [lia|]. intros H. apply K4 in H. lia.
    + exact ND.
    + intros d H. rewrite Eu. unfold upd. destruct (Nat.eqb_spec d (w_next o)); [apply K1 in H; lia|auto].
    + intros d j H. rewrite Eh. auto.
    + intros j d. rewrite Eh, Eu. unfold upd. intros H. destruct (Nat.eqb_spec d (w_next o)); [apply K2 in H; lia|apply (HU j d H)].
    + intros j k d. rewrite !Eh. apply HH.
    + intros d. rewrite Eo, Eu. unfold upd. destruct (Nat.eqb_spec d (w_next o)); [auto|]. intros H L. rewrite El in L.
      destruct (PL d H L) as [?|[?|[j Hj]]]; auto. right. right. exists j. rewrite Eh. exact Hj.
  - constructor; rewrite ?Ei, ?En.
    + intros d [].
    + intros j d. rewrite Eh. apply K2.
    + intros d. rewrite Eu. apply K3.
    + intros d H. apply Eo in H as [H _]. auto.
    + constructor.
    + intros d [].
    + intros d j [].
    + intros j d. rewrite Eh, Eu. apply HU.
    + intros j k d. rewrite !Eh. apply HH.
    + intros d H L. apply Eo in H as [H Hn]. rewrite Eu. destruct (w_lost o) eqn:LO; [rewrite El in L by reflexivity; discriminate|].
      destruct (PL d H eq_refl) as [?|[?|[j Hj]]]; auto; try contradiction. right. right. exists j. rewrite Eh. exact Hj.
  - constructor; rewrite ?Ei, ?En.
    + exact K1.
    + intros j d. rewrite Eh. unfold upd. destruct (Nat.eqb j i); [discriminate|apply K2].
    + intros d. rewrite Eu. apply K3.
    + intros d. rewrite Eo. apply K4.
    + exact ND.
    + intros d H. rewrite Eu. auto.
    + intros d j H. rewrite Eh. unfold upd. destruct (Nat.eqb j i); [discriminate|auto].
    + intros j d. rewrite Eh, Eu. unfold upd. destruct (Nat.eqb j i); [discriminate|apply HU].
    + intros j k d. rewrite !Eh. unfold upd. destruct (Nat.eqb_spec j i), (Nat.eqb_spec k i); subst; auto; try discriminate.
      apply HH.
    + intros d H L. congruence.
Qed.

(** * The pool refines it *)
Definition lost (tr : list (nat * pev)) : bool := existsb (fun x => is_panic (snd x)) tr.
Definition own_of (s : pst) : own :=
  {| w_idle := p_idle s; w_hand := fun i => in_hand (p_pc s i); w_user := with_user (p_trace s); w_open := cl_open s;
     w_next := p_next s; w_lost := lost (p_trace s) |}.

Definition neutral (e : pev) : bool := match e with EGot _ | EGive _ => false | _ => true end.
Lemma with_user_ptr i ev tr c : forallb neutral ev = true -> with_user (ptr i ev tr) c = with_user tr c.
Proof.
  unfold ptr. induction ev as [|e ev IH]; cbn; [reflexivity|]. intros H. apply andb_prop in H as [H1 H2].
  destruct e; try discriminate; auto.
Qed.
Lemma shut_events_neutral l : forallb neutral (shut_events l) = true.
Proof. apply forallb_forall. intros e H. apply in_shut_events in H as (c & -> & _). reflexivity. Qed.
Lemma lost_shut i l tr : lost (map (fun e => (i, e)) (shut_events l) ++ tr) = lost tr.
Proof.
  unfold lost. rewrite existsb_app.
  replace (existsb (fun x : nat * pev => is_panic (snd x)) (map (fun e => (i, e)) (shut_events l))) with false; [reflexivity|].
  symmetry. apply not_true_is_false. intros H. apply existsb_exists in H as ((j & e) & I & H).
  apply in_map_iff in I as (e' & [= <- <-] & I). apply in_shut_events in I as (c & -> & _). discriminate.
Qed.
Lemma with_user_shut i l tr c : with_user (map (fun e => (i, e)) (shut_events l) ++ tr) c = with_user tr c.
Proof. apply (with_user_ptr i (shut_events l) tr c), shut_events_neutral. Qed.

Lemma hand_to s i p j f : (forall k, f k = p_pc s k) -> in_hand (upd f i p j) = upd (fun k => in_hand (p_pc s k)) i (in_hand p) j.
Proof. intros E. unfold upd. destruct (Nat.eqb j i); [reflexivity|]. rewrite E. reflexivity. Qed.
Lemma hand_same s i p j : in_hand p = in_hand (p_pc s i) -> in_hand (upd (p_pc s) i p j) = in_hand (p_pc s j).
Proof. intros E. unfold upd. destruct (Nat.eqb_spec j i) as [->|]; [exact E|reflexivity]. Qed.

Ltac simo := sim; cbn [w_idle w_hand w_user w_open w_next w_lost] in *; sim.
Lemma pstep_omove mi mo s i s' : disciplined (p_trace s') -> pstep mi mo s i s' -> omove (own_of s) (own_of s').
Proof.
  intros Di St.
  destruct St as [P|c P (j & I)|P|c b P (j & I)|P L|c l P E|c w P|c w P|c w P|w P L|P E M|P E M|P C|P C|P|P|c k P L|c k P C
    |c k j P C Q|c k P C Q M|c k P C Q M|P L|a c b P E|P C|P C]; unfold own_of in *.
  - apply MSame; simo; auto. intros j. apply hand_same. rewrite P. reflexivity.
  - apply (MGive _ _ i c); simo; auto.
    + apply (Di [] i c (p_trace s)). reflexivity.
    + rewrite P. reflexivity.
    + intros j'. apply hand_to. auto.
    + intros d. cbn. unfold upd. rewrite (Nat.eqb_sym c d). destruct (Nat.eqb d c); reflexivity.
  - apply MSame; simo; auto. intros j. apply hand_same. rewrite P. reflexivity.
  - apply MSame; simo; auto.
  - apply MSame; simo; auto. intros j. apply hand_same. rewrite P. reflexivity.
  - apply (MPop _ _ i c); simo; auto; [rewrite P; reflexivity|]. intros j. apply hand_to. auto.
  - apply (MGot _ _ i c); simo; auto; [rewrite P; reflexivity|..].
    + intros j. apply hand_to. auto.
    + intros d. cbn. unfold upd. rewrite (Nat.eqb_sym c d). destruct (Nat.eqb d c); reflexivity.
  - apply MSame; simo; auto. intros j. apply hand_same. rewrite P. reflexivity.
  - apply MSame; simo; auto. intros j. apply hand_same. rewrite P. reflexivity.
  - apply MSame; simo; auto. intros j. apply hand_same. rewrite P. destruct w; reflexivity.
  - apply MSame; simo; auto. intros j. apply hand_same. rewrite P. reflexivity.
  - apply MSame; simo; auto. intros j. apply hand_same. rewrite P. reflexivity.
  - apply MSame; simo; auto. intros j. apply hand_same. rewrite P. reflexivity.
  - apply (MLost _ _ i); simo; auto. intros j. apply hand_to. auto.
  - apply MSame; simo; auto. intros j. apply hand_same. rewrite P. reflexivity.
  - destruct (dialled_fields s) as (_ & Ei & _ & _ & En & Ep & Et & Eo).
    apply MNew; simo; rewrite ?Ei, ?En, ?Ep, ?Et, ?Eo; auto.
    + intros j. apply hand_same. rewrite P. reflexivity.
    + intros d. cbn. unfold upd. rewrite (Nat.eqb_sym (p_next s) d). destruct (Nat.eqb d (p_next s)); reflexivity.
  - apply MSame; simo; auto. intros j. apply hand_same. rewrite P. reflexivity.
  - apply (MLost _ _ i); simo; auto. intros j. apply hand_to. auto.
  - assert (i <> j) by congruence.
    apply (MPass _ _ i j c); simo; auto; [rewrite P; reflexivity|rewrite Q; reflexivity|].
    intros k'. unfold upd. destruct (Nat.eqb k' i); [destruct k; reflexivity|]. destruct (Nat.eqb k' j); reflexivity.
  - apply (MShut _ _ i c); simo; auto; [rewrite P; reflexivity|]. intros j. rewrite (hand_to s) by auto. destruct k; reflexivity.
  - apply (MKeep _ _ i c); simo; auto; [rewrite P; reflexivity|]. intros j. rewrite (hand_to s) by auto. destruct k; reflexivity.
  - apply MSame; simo; auto. intros j. apply hand_same. rewrite P. reflexivity.
  - apply MSame; simo; auto.
    + intros j. apply hand_same. rewrite P. reflexivity.
    + intros d. cbn. apply with_user_shut.
    + intros d H. apply shut_all_open in H. tauto.
    + cbn. apply lost_shut.
  - apply MEmpty; simo; auto.
    + intros j. apply hand_same. rewrite P. reflexivity.
    + intros d. cbn. apply with_user_shut.
    + intros d H. apply shut_all_open in H. tauto.
    + cbn. rewrite lost_shut. auto.
  - apply MEmpty; simo; auto.
    + intros j. apply hand_same. rewrite P. reflexivity.
    + intros d. cbn. apply with_user_shut.
    + intros d H. apply shut_all_open in H. tauto.
Qed.

Lemma disciplined_ptr i ev tr : disciplined (ptr i ev tr) -> disciplined tr.
Proof. intros H post j c pre E. apply (H (map (fun e => (i, e)) ev ++ post) j c). unfold ptr. rewrite E, app_assoc. reflexivity. Qed.

Lemma oinv_reachable mi mo s : preachable mi mo s -> disciplined (p_trace s) -> oinv (own_of s).
Proof.
  induction 1 as [|s s' i R IH St]; intros Di.
  - constructor; cbn; try discriminate; try tauto; constructor.
  - destruct (step_trace _ _ _ _ _ St) as [ev E]. apply (omove_inv (own_of s)).
    + apply IH. rewrite E in Di. apply (disciplined_ptr _ _ _ Di).
    + apply (pstep_omove _ _ _ _ _ Di St).
Qed.
