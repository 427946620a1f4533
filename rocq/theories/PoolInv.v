From Verif Require Import Bytes ClientConc Pool SpecPool PoolProofs.

Ltac cases_of St := destruct St as [P|c P (j & I)|P|c b P (j & I)|P L|c l P E|c w P|c w P|c w P|w P L|P E M|P E M|P C|P C|P|P|c k P L|c k P C
    |c k j P C Q|c k P C Q M|c k P C Q M|P L|a c b P E|P C|P C].

(** * Exclusive hand-out *)
Lemma got_was_free mi mo s : preachable mi mo s -> disciplined (p_trace s) ->
  forall post i c pre, p_trace s = post ++ (i, EGot c) :: pre -> with_user pre c = false.
Proof.
  induction 1 as [|s s' i R IH St]; intros Di post j0 c0 pre E0.
  - destruct post; discriminate.
  - destruct (step_trace _ _ _ _ _ St) as [ev Et]. assert (Di0 : disciplined (p_trace s)).
    { rewrite Et in Di. apply (disciplined_ptr _ _ _ Di). }
    specialize (IH Di0). pose proof (oinv_reachable _ _ _ R Di0) as O. clear Et ev.
    assert (Old : forall ev', forallb neutral ev' = true -> ptr i ev' (p_trace s) = post ++ (j0, EGot c0) :: pre -> with_user pre c0 = false).
    { clear - IH. intros ev'. unfold ptr. revert post. induction ev' as [|e ev' IHe]; cbn; intros post H E'; [apply (IH post j0 c0 pre E')|].
      apply andb_prop in H as [H1 H2]. destruct post as [|x post]; cbn in E'; injection E' as E1 E2.
      - subst. discriminate.
      - apply (IHe post H2 E2). }
    cases_of St; sim; try (apply (Old []); [reflexivity|exact E0]); try (apply (Old [_]); [reflexivity|exact E0]);
      try (refine (Old [_] _ E0); reflexivity).
    + destruct post as [|x post]; cbn in E0; [discriminate|]. injection E0 as _ E0. apply (IH post j0 c0 pre E0).
    + destruct post as [|x post]; cbn in E0; injection E0; intros.
      * subst. cbn. apply (oi_hand_user _ O j0). cbn. rewrite P. reflexivity.
      * destruct post as [|y post]; cbn in *; [congruence|]. injection H as _ H. apply (IH post j0 c0 pre H).
    + destruct (dialled_fields s) as (_ & _ & _ & _ & _ & _ & Et' & _). rewrite Et' in E0.
      destruct post as [|x post]; cbn in E0; injection E0; intros.
      * subst. cbn. destruct (with_user (p_trace s) (p_next s)) eqn:U; [|reflexivity].
        apply (oi_user_known _ O) in U. cbn in U. lia.
      * destruct post as [|y post]; cbn in *; [congruence|]. injection H as _ H. apply (IH post j0 c0 pre H).
    + apply (Old (EPoolErr :: shut_events (a ++ [c]))); [cbn; apply shut_events_neutral|exact E0].
    + apply (Old (EPoolClosed :: shut_events (p_idle s))); [cbn; apply shut_events_neutral|exact E0].
    + apply (Old (EPanic :: EPoolClosed :: shut_events (p_idle s))); [cbn; apply shut_events_neutral|exact E0].
Qed.

Lemma with_user_until mid j c pre : with_user (mid ++ (j, EGot c) :: pre) c = false -> exists k, In (k, EGive c) mid.
Proof.
  induction mid as [|(k & e) mid IH]; cbn; [rewrite Nat.eqb_refl; discriminate|].
  destruct e as [d| |d|d|d|d ok| | | ]; intros H; try (destruct (IH H) as [x Hx]; exists x; auto).
  - destruct (Nat.eqb d c); [discriminate|]. destruct (IH H) as [x Hx]; exists x; auto.
  - destruct (Nat.eqb_spec d c) as [->|]; [exists k; auto|]. destruct (IH H) as [x Hx]; exists x; auto.
Qed.

Lemma exclusive mi mo s : preachable mi mo s -> disciplined (p_trace s) ->
  forall post i c mid j pre, p_trace s = post ++ (i, EGot c) :: mid ++ (j, EGot c) :: pre ->
  exists k, In (k, EGive c) mid.
Proof. intros R Di post i c mid j pre E. apply (with_user_until mid j c pre), (got_was_free mi mo s R Di post i c _ E). Qed.

(** * No client is lost sight of *)
Lemma lost_false tr : no_event tr is_panic -> lost tr = false.
Proof.
  intros H. apply not_true_is_false. intros L. apply existsb_exists in L as ((i & e) & I & L). cbn in L. rewrite (H i e I) in L. discriminate.
Qed.
Lemma no_leak mi mo s : preachable mi mo s -> disciplined (p_trace s) -> no_event (p_trace s) is_panic ->
  forall c, cl_open s c = true -> with_user (p_trace s) c = true \/ In c (p_idle s) \/ exists i, in_hand (p_pc s i) = Some c.
Proof. intros R Di NP c H. apply (oi_place _ (oinv_reachable mi mo s R Di) c H). apply lost_false, NP. Qed.

(** * The closed flag *)
Record cinv (s : pst) : Prop := {
  ci_ev : p_closed s = true <-> exists i, In (i, EPoolClosed) (p_trace s);
  ci_idle : p_closed s = true -> p_idle s = [] }.
Lemma closed_ptr i ev tr : ~ In EPoolClosed ev -> (exists j, In (j, EPoolClosed) (ptr i ev tr)) <-> (exists j, In (j, EPoolClosed) tr).
Proof. intros H. split; intros [j I]; exists j; [|apply in_ptr; auto]. apply in_ptr in I as [[_ I]|I]; [contradiction|exact I]. Qed.
Lemma cinv_reachable mi mo s : preachable mi mo s -> cinv s.
Proof.
  induction 1 as [|s s' i R [V D] St].
  - constructor; cbn; [|reflexivity]. split; [discriminate|]. intros [? []].
  - assert (Ke : forall ev, ~ In EPoolClosed ev -> p_closed s = true <-> exists j, In (j, EPoolClosed) (ptr i ev (p_trace s))).
    { intros ev H. rewrite (closed_ptr i ev _ H). exact V. }
    cases_of St; (constructor; sim; [|try solve [auto | intros; congruence]]);
      try (apply (Ke []); intros []); try (apply (Ke [_]); intros [|[]]; discriminate); try (apply (Ke [_; _]); intros [|[|[]]]; discriminate).
    + intros H. specialize (D H). congruence.
    + destruct (dialled_fields s) as (_ & _ & _ & -> & _ & _ & -> & _). apply (Ke [_; _]). intros [|[|[]]]; discriminate.
    + destruct (dialled_fields s) as (_ & -> & _ & -> & _). exact D.
    + apply (Ke (EPoolErr :: shut_events (a ++ [c]))). intros [|I]; [discriminate|]. apply in_shut_events in I as (? & ? & _). discriminate.
    + split; [|auto]. intros _. exists i. left. reflexivity.
    + split; [|auto]. intros _. exists i. right. left. reflexivity.
Qed.

Lemma close_closes_all mi mo s : preachable mi mo s -> disciplined (p_trace s) -> no_event (p_trace s) is_panic ->
  (exists i, In (i, EPoolClosed) (p_trace s)) ->
  (forall c, with_user (p_trace s) c = false) -> (forall i, in_hand (p_pc s i) = None) ->
  forall c, cl_open s c = false.
Proof.
  intros R Di NP H U Hd c. destruct (cinv_reachable _ _ _ R) as [V D]. apply V, D in H.
  destruct (cl_open s c) eqn:O; [|reflexivity].
  destruct (no_leak mi mo s R Di NP c O) as [I|[I|[i I]]]; [rewrite U in I|rewrite H in I|rewrite Hd in I]; [discriminate|destruct I|discriminate].
Qed.

(** * Mutual exclusion *)
Definition crit (p : ppc) : bool := match p with TLoop | TDial | TPutL _ _ | TCloseL => true | _ => false end.
Definition linv (lk : option nat) (pc : nat -> ppc) : Prop := forall i, crit (pc i) = true <-> lk = Some i.
Lemma linv_keep lk pc i p : linv lk pc -> crit p = crit (pc i) -> linv lk (upd pc i p).
Proof. intros L E k. unfold upd. destruct (Nat.eqb_spec k i) as [->|]; [rewrite E|]; apply L. Qed.
Lemma linv_take pc i p : linv None pc -> crit p = true -> linv (Some i) (upd pc i p).
Proof.
  intros L E k. unfold upd. destruct (Nat.eqb_spec k i) as [->|N]; [tauto|]. rewrite (L k). split; congruence.
Qed.
Lemma linv_drop lk pc i p : linv lk pc -> crit (pc i) = true -> crit p = false -> linv None (upd pc i p).
Proof.
  intros L C E k. apply L in C. unfold upd. destruct (Nat.eqb_spec k i) as [->|N]; [rewrite E|rewrite (L k)]; split; congruence.
Qed.
Lemma linv_reachable mi mo s : preachable mi mo s -> linv (p_lock s) (p_pc s).
Proof.
  induction 1 as [|s s' i R V St]; [intros i; cbn; split; discriminate|].
  cases_of St; sim; try (rewrite L in V);
    try (apply linv_keep; [exact V|rewrite P; reflexivity]);
    try (apply (linv_take _ _ _ V); reflexivity);
    try (apply (linv_drop (p_lock s)); [exact V|rewrite P; reflexivity|try destruct k; reflexivity]).
  - exact V.
  - apply (linv_take _ _ _ V). destruct w; reflexivity.
  - apply linv_keep; [exact V|]. destruct P as [-> | ->]; reflexivity.
  - destruct (dialled_fields s) as (_ & _ & _ & _ & _ & -> & _).
    apply (linv_drop (p_lock s)); [exact V|rewrite P; reflexivity|reflexivity].
  - assert (i <> j) by congruence. apply (linv_drop (p_lock s)).
    + apply linv_keep; [exact V|rewrite Q; reflexivity].
    + unfold upd. destruct (Nat.eqb_spec i j); [congruence|]. rewrite P. reflexivity.
    + destruct k; reflexivity.
Qed.

(** Finitely many goroutines are inside the pool. *)
Lemma finite_reachable mi mo s : preachable mi mo s -> exists n, forall j, (n <= j)%nat -> p_pc s j = TIdle.
Proof.
  induction 1 as [|s s' i R [n V] St]; [exists 0%nat; reflexivity|].
  assert (F : forall p, exists m, forall j, (m <= j)%nat -> upd (p_pc s) i p j = TIdle).
  { intros p. exists (Nat.max n (S i)). intros j H. unfold upd. destruct (Nat.eqb_spec j i); [lia|]. apply V. lia. }
  cases_of St; sim; try apply F.
  - exists n. exact V.
  - destruct (dialled_fields s) as (_ & _ & _ & _ & _ & -> & _). apply F.
  - exists (Nat.max n (S (Nat.max i j))). intros x H. unfold upd. destruct (Nat.eqb_spec x i); [lia|].
    destruct (Nat.eqb_spec x j); [lia|]. apply V. lia.
Qed.
Lemma parked_dec s n : (forall j, (n <= j)%nat -> p_pc s j = TIdle) ->
  (exists j, p_pc s j = TParked) \/ (forall j, p_pc s j <> TParked).
Proof.
  intros V.
  assert (H : forall m, (exists j, p_pc s j = TParked) \/ (forall j, (j < m)%nat -> p_pc s j <> TParked)).
  { induction m as [|m [IH|IH]]; [right; lia|left; exact IH|].
    assert (D : {p_pc s m = TParked} + {p_pc s m <> TParked}) by (destruct (p_pc s m); (left; reflexivity) || (right; discriminate)).
    destruct D as [D|D]; [left; exists m; exact D|]. right. intros j Hj. destruct (Nat.eq_dec j m) as [->|]; [exact D|apply IH; lia]. }
  destruct (H n) as [E|E]; [left; exact E|right]. intros j. destruct (le_lt_dec n j) as [G|G]; [rewrite (V j G); discriminate|auto].
Qed.

Lemma holder_steps mi mo s i : preachable mi mo s -> p_lock s = Some i -> exists s', pstep mi mo s i s'.
Proof.
  intros R L. pose proof (linv_reachable _ _ _ R i) as C. apply C in L as C'. destruct (finite_reachable _ _ _ R) as [n F].
  destruct (p_pc s i) eqn:P; try discriminate.
  - destruct (p_idle s) as [|c l] eqn:E; [|eexists; eapply SPop; eassumption].
    destruct (Z_lt_le_dec (p_num s) mo); eexists; [eapply SRoom|eapply SFull]; eassumption.
  - eexists. apply SDialErr. exact P.
  - destruct (p_closed s) eqn:Cl; [eexists; eapply SPutPanic; eassumption|].
    destruct (parked_dec s n F) as [[j Q]|Q]; [eexists; eapply SHandOver; eassumption|].
    destruct (Z_lt_le_dec (Z.of_nat (length (p_idle s))) mi); eexists; [eapply SKeep|eapply SSurplus]; eassumption.
  - destruct (p_closed s) eqn:Cl; eexists; [eapply SClosePanic|eapply SCloseOk]; eassumption.
Qed.
Lemma holder_releases mi mo s i s1 s2 : preachable mi mo s -> p_lock s = Some i ->
  pstep mi mo s i s1 -> pstep mi mo s1 i s2 -> p_lock s1 = None \/ p_lock s2 = None.
Proof.
  intros R Lk St1 St2. pose proof (linv_reachable _ _ _ R i) as C. apply C in Lk as C'. clear C.
  cases_of St1; rewrite ?P in C'; try discriminate; sim; auto.
  - right. assert (P1 : p_pc (p_to s i TDial []) i = TDial) by (cbn; unfold upd; rewrite Nat.eqb_refl; reflexivity).
    clear P E M. cases_of St2; sim; try congruence; auto. destruct P; congruence.
  - destruct P as [P|P]; rewrite P in C'; discriminate.
Qed.

(** * Only clients that exist are used *)
Record kinv (s : pst) : Prop := {
  ki_got : forall j c, In (j, EGot c) (p_trace s) -> (c < p_next s)%nat;
  ki_idle : forall c, In c (p_idle s) -> (c < p_next s)%nat;
  ki_hand : forall i c, in_hand (p_pc s i) = Some c -> (c < p_next s)%nat }.
Lemma hand_or (pc : nat -> ppc) i p j c : in_hand (upd pc i p j) = Some c -> in_hand p = Some c \/ in_hand (pc j) = Some c.
Proof. unfold upd. destruct (Nat.eqb j i); auto. Qed.
Lemma kinv_reachable mi mo s : preachable mi mo s -> kinv s.
Proof.
  induction 1 as [|s s' i R [G D H] St]; [constructor; cbn; try tauto; discriminate|].
  assert (Ge : forall ev j c, (forall d, ~ In (EGot d) ev) -> In (j, EGot c) (ptr i ev (p_trace s)) -> (c < p_next s)%nat).
  { intros ev j c Hn I. apply in_ptr in I as [[_ I]|I]; [destruct (Hn _ I)|apply (G j c I)]. }
  assert (Hi : forall c, in_hand (p_pc s i) = Some c -> (c < p_next s)%nat) by (intros c; apply H).
  cases_of St; (constructor; sim; try exact D; try exact G; try exact H); try rewrite P in Hi;
    try (intros j0 c0 I0; apply (Ge [] j0 c0); [intros d []|exact I0]);
    try (intros j0 c0 I0; refine (Ge [_] j0 c0 _ I0); intros d [|[]]; discriminate);
    try (intros j0 c0 I0; apply hand_or in I0 as [I0|I0]; [try discriminate I0|apply (H j0 c0 I0)]);
    try (injection I0 as <-; auto; fail).
  - injection I0 as <-. apply (G j c I).
  - intros d Hd. apply D. rewrite E. right. exact Hd.
  - injection I0 as <-. apply D. rewrite E. left. reflexivity.
  - intros j0 c0 [[= <- <-]|[I0|I0]]; [auto|discriminate|apply (G j0 c0 I0)].
  - destruct w; discriminate.
  - destruct (dialled_fields s) as (_ & _ & _ & _ & -> & _ & -> & _).
    intros j0 c0 [[= <- <-]|[I0|I0]]; [lia|discriminate|]. apply G in I0. lia.
  - destruct (dialled_fields s) as (_ & -> & _ & _ & -> & _). intros d Hd. apply D in Hd. lia.
  - destruct (dialled_fields s) as (_ & _ & _ & _ & -> & -> & _).
    intros j0 c0 I0. apply hand_or in I0 as [I0|I0]; [discriminate|]. apply H in I0. lia.
  - intros j0 c0 I0. apply hand_or in I0 as [I0|I0]; [destruct k; discriminate|].
    apply hand_or in I0 as [I0|I0]; [injection I0 as <-; auto|apply (H j0 c0 I0)].
  - destruct k; discriminate.
  - intros d Hd. apply in_app_or in Hd as [Hd|[<-|[]]]; auto.
  - destruct k; discriminate.
  - intros j0 c0 I0. apply (Ge (EPoolErr :: shut_events (a ++ [c])) j0 c0); [|exact I0].
    intros d [|Hd]; [discriminate|]. apply in_shut_events in Hd as (? & ? & _). discriminate.
  - intros j0 c0 I0. apply (Ge (EPoolClosed :: shut_events (p_idle s)) j0 c0); [|exact I0].
    intros d [|Hd]; [discriminate|]. apply in_shut_events in Hd as (? & ? & _). discriminate.
  - intros d [].
  - intros j0 c0 I0. apply (Ge (EPanic :: EPoolClosed :: shut_events (p_idle s)) j0 c0); [|exact I0].
    intros d [|[|Hd]]; try discriminate. apply in_shut_events in Hd as (? & ? & _). discriminate.
  - intros d [].
Qed.

(** * One session *)
Lemma session_reachable mi mo s : preachable mi mo s -> p_closed s = false ->
  (p_session s = None -> p_next s = 0%nat) /\ (forall c, (c < p_next s)%nat -> p_session s = Some (cl_session s c)).
Proof.
  induction 1 as [|s s' i R IH St]; [intros _; cbn; split; [reflexivity|lia]|].
  cases_of St; sim; try exact IH; try discriminate.
  destruct (dialled_fields s) as (_ & _ & _ & -> & _). intros Cl. destruct (IH Cl) as [I1 I2]. unfold dialled.
  destruct (p_session s) as [ses|] eqn:S; cbn; (split; [discriminate|]); intros c Hc; unfold upd; destruct (Nat.eqb_spec c (p_next s)); auto.
  - apply I2. lia.
  - rewrite (I1 eq_refl) in *. lia.
Qed.
Lemma one_session mi mo s i j c d : preachable mi mo s -> (forall k, ~ In (k, EPoolClosed) (p_trace s)) ->
  In (i, EGot c) (p_trace s) -> In (j, EGot d) (p_trace s) -> cl_session s c = cl_session s d.
Proof.
  intros R NC I J. destruct (kinv_reachable _ _ _ R) as [G _ _]. apply G in I, J.
  destruct (p_closed s) eqn:Cl.
  - apply (ci_ev s (cinv_reachable _ _ _ R)) in Cl as [k Hk]. destruct (NC k Hk).
  - destruct (session_reachable _ _ _ R Cl) as [_ H]. rewrite (H c I) in H. specialize (H d J). congruence.
Qed.

(** * Counting *)
Definition cnt (f : nat -> bool) (n : nat) : nat := length (filter f (seq 0 n)).
Lemma cnt_S f n : cnt f (S n) = (cnt f n + if f n then 1 else 0)%nat.
Proof. unfold cnt. rewrite seq_S, filter_app, app_length. cbn. destruct (f n); reflexivity. Qed.
Lemma cnt_ext f g n : (forall c, (c < n)%nat -> f c = g c) -> cnt f n = cnt g n.
Proof. induction n as [|n IH]; [reflexivity|]. intros H. rewrite !cnt_S, IH, H; auto. Qed.
Lemma cnt_off f n c : (c < n)%nat -> f c = true -> (cnt (upd f c false) n + 1 = cnt f n)%nat.
Proof.
  induction n as [|n IH]; [lia|]. intros L Hc. rewrite !cnt_S. unfold upd at 2. destruct (Nat.eqb_spec n c) as [->|N].
  - rewrite Hc, (cnt_ext (upd f c false) f); [lia|]. intros d Hd. unfold upd. destruct (Nat.eqb_spec d c); [lia|reflexivity].
  - rewrite <- IH by (auto; lia). lia.
Qed.
Lemma cnt_new f n : cnt (upd f n true) (S n) = S (cnt f n).
Proof.
  rewrite cnt_S. unfold upd at 2. rewrite Nat.eqb_refl, (cnt_ext (upd f n true) f); [lia|].
  intros d Hd. unfold upd. destruct (Nat.eqb_spec d n); [lia|reflexivity].
Qed.

Definition dying (p : ppc) : bool :=
  match p with TDead _ _ | TAgain _ | TPut _ (KDead _) | TPutL _ (KDead _) => true | _ => false end.
Record ninv (mo : Z) (s : pst) : Prop := {
  ni_num : p_num s = Z.of_nat (cnt (cl_open s) (p_next s));
  ni_max : (p_num s <= Z.max 0 mo)%Z;
  ni_dial : forall i, p_pc s i = TDial -> (p_num s < mo)%Z;
  ni_dying : forall i, dying (p_pc s i) = false;
  ni_idle : forall c, In c (p_idle s) -> cl_open s c = true;
  ni_hand : forall i c, in_hand (p_pc s i) = Some c -> cl_open s c = true;
  ni_user : forall c, with_user (p_trace s) c = true -> cl_open s c = true }.

Lemma ninv_move mo s s' i p : ninv mo s ->
  p_num s' = p_num s -> cl_open s' = cl_open s -> p_next s' = p_next s -> p_pc s' = upd (p_pc s) i p ->
  (forall c, In c (p_idle s') -> cl_open s c = true) -> dying p = false -> (forall c, in_hand p = Some c -> cl_open s c = true) ->
  (p = TDial -> (p_num s < mo)%Z) -> (forall c, with_user (p_trace s') c = true -> cl_open s c = true) -> ninv mo s'.
Proof.
  intros [N1 N2 N3 N4 N5 N6 N7] E1 E2 E3 E4 HI HD HH HT HU. constructor; rewrite ?E1, ?E2, ?E3, ?E4; auto.
  - intros j. unfold upd. destruct (Nat.eqb j i); [exact HT|apply N3].
  - intros j. unfold upd. destruct (Nat.eqb j i); [exact HD|apply N4].
  - intros j c. unfold upd. destruct (Nat.eqb j i); [apply HH|apply N6].
Qed.

Lemma ninv_reachable mi mo s : preachable mi mo s -> disciplined (p_trace s) -> no_event (p_trace s) is_failed_test ->
  no_event (p_trace s) is_pool_close -> ninv mo s.
Proof.
  induction 1 as [|s s' i R IH St]; intros Di NF NC.
  { constructor; cbn; try discriminate; try tauto; try lia; try reflexivity. }
  destruct (step_trace _ _ _ _ _ St) as [ev Et].
  assert (Di0 : disciplined (p_trace s)) by (rewrite Et in Di; apply (disciplined_ptr _ _ _ Di)).
  assert (NF0 : no_event (p_trace s) is_failed_test) by (rewrite Et in NF; apply (no_event_ptr _ _ _ _ NF)).
  assert (NC0 : no_event (p_trace s) is_pool_close) by (rewrite Et in NC; apply (no_event_ptr _ _ _ _ NC)).
  clear Et ev. destruct (IH Di0 NF0 NC0) as [N1 N2 N3 N4 N5 N6 N7]. clear IH.
  pose proof (oinv_reachable _ _ _ R Di0) as O. pose proof (kinv_reachable _ _ _ R) as [K1 K2 K3].
  pose proof (linv_reachable _ _ _ R) as LI.
  pose proof (N4 i) as N4i. pose proof (N6 i) as N6i. pose proof (LI i) as LIi.
  assert (V : ninv mo s) by (constructor; assumption).
  cases_of St; try (rewrite P in N4i; discriminate); try rewrite P in N6i; try rewrite P in N4i; try rewrite P in LIi;
    try (exfalso; specialize (NF i (ETest c false)); cbn in NF; discriminate NF; left; reflexivity).
  all: try (exfalso; specialize (NC i EPoolErr); cbn in NC; discriminate NC; left; reflexivity).
  all: try (exfalso; specialize (NC i EPoolClosed); cbn in NC; discriminate NC; (left; reflexivity) || (right; left; reflexivity)).
  all: try (eapply (ninv_move mo s _ i _ V); [reflexivity|reflexivity|reflexivity|reflexivity|..]; sim; try reflexivity; try exact N5; try exact N7; try exact N4i; try exact N6i; try discriminate; fail).
  - eapply (ninv_move mo s _ i _ V); [reflexivity|reflexivity|reflexivity|reflexivity|..]; sim; try reflexivity; try exact N5; try discriminate.
    + intros d [= <-]. apply N7, (Di [] i c (p_trace s)). reflexivity.
    + intros d. cbn. destruct (Nat.eqb c d); [discriminate|apply N7].
  - constructor; sim; auto.
  - eapply (ninv_move mo s _ i _ V); [reflexivity|reflexivity|reflexivity|reflexivity|..]; sim; try reflexivity; try exact N7; try discriminate.
    + intros d Hd. apply N5. rewrite E. right. exact Hd.
    + intros d [= <-]. apply N5. rewrite E. left. reflexivity.
  - eapply (ninv_move mo s _ i _ V); [reflexivity|reflexivity|reflexivity|reflexivity|..]; sim; try reflexivity; try exact N5; try discriminate.
    intros d. cbn. destruct (Nat.eqb_spec c d) as [<-|]; [intros _; apply N6i; reflexivity|apply N7].
  - eapply (ninv_move mo s _ i _ V); [reflexivity|reflexivity|reflexivity|reflexivity|..]; sim; try reflexivity; try exact N5; try exact N7; try discriminate. intros _. exact M.
  - (* SDialOk *)
    destruct (dialled_fields s) as (_ & Ei & Enum & _ & En & Ep & Et & Eo). pose proof (N3 i P) as LT.
    assert (Fr : forall d, cl_open s d = true -> upd (cl_open s) (p_next s) true d = true).
    { intros d H. unfold upd. destruct (Nat.eqb d (p_next s)); auto. }
    constructor; sim; rewrite ?Ei, ?Enum, ?En, ?Ep, ?Et, ?Eo.
    + rewrite cnt_new. lia.
    + lia.
    + intros j. unfold upd. destruct (Nat.eqb_spec j i) as [->|Nj]; [discriminate|]. intros Hj.
      assert (p_lock s = Some i) by (apply LIi; reflexivity). assert (p_lock s = Some j) by (apply LI; rewrite Hj; reflexivity). congruence.
    + intros j. unfold upd. destruct (Nat.eqb j i); auto.
    + auto.
    + intros j d H. apply hand_or in H as [H|H]; [discriminate|]. apply Fr, (N6 j d H).
    + intros d. cbn. destruct (Nat.eqb_spec (p_next s) d) as [<-|]; [intros _; unfold upd; rewrite Nat.eqb_refl; reflexivity|auto].
  - (* SHandOver *)
    assert (V1 : ninv mo (p_to (set_lock s None) j (TTest c true) [])).
    { apply (ninv_move mo s _ j (TTest c true) V); sim; try reflexivity; try exact N5; try exact N7; try discriminate.
      intros d [= <-]. apply N6i. reflexivity. }
    apply (ninv_move mo _ _ i (after_put k) V1); sim; try reflexivity; try exact N5; try exact N7; destruct k; try discriminate; reflexivity.
  - (* SSurplus *)
    assert (Oc : cl_open s c = true) by (apply N6i; reflexivity).
    assert (Fr : forall d, d <> c -> cl_open s d = true -> upd (cl_open s) c false d = true).
    { intros d Hd H. unfold upd. destruct (Nat.eqb_spec d c); [contradiction|exact H]. }
    assert (Hc : in_hand (p_pc s i) = Some c) by (rewrite P; reflexivity).
    constructor; sim.
    + assert (c < p_next s)%nat by (apply (K3 i c Hc)). pose proof (cnt_off (cl_open s) (p_next s) c H Oc). lia.
    + lia.
    + intros j. unfold upd. destruct (Nat.eqb_spec j i) as [->|Nj]; [destruct k; discriminate|]. intros Hj. pose proof (N3 j Hj). lia.
    + intros j. unfold upd. destruct (Nat.eqb j i); [destruct k; [reflexivity|discriminate]|auto].
    + intros d Hd. apply Fr; [|auto]. intros ->. exact (oi_idle_hand _ O c i Hd Hc).
    + intros j d H. unfold upd in H. destruct (Nat.eqb_spec j i) as [->|Nj]; [destruct k; discriminate|].
      apply Fr; [|apply (N6 j d H)]. intros ->. apply Nj, (oi_hand_hand _ O j i c H Hc).
    + intros d H. cbn in H. apply Fr; [|auto]. intros ->. rewrite (oi_hand_user _ O i c Hc : with_user (p_trace s) c = false) in H. discriminate.
  - (* SKeep *)
    apply (ninv_move mo s _ i (after_put k) V); sim; try reflexivity; try exact N7; try (destruct k; discriminate || reflexivity).
    intros d Hd. apply in_app_or in Hd as [Hd|[<-|[]]]; [auto|]. apply N6i. reflexivity.
Qed.

Lemma open_bounded mi mo s : preachable mi mo s -> disciplined (p_trace s) -> no_event (p_trace s) is_failed_test ->
  no_event (p_trace s) is_pool_close -> p_num s = open_count s /\ (open_count s <= Z.max 0 mo)%Z.
Proof.
  intros R Di NF NC. destruct (ninv_reachable mi mo s R Di NF NC) as [N1 N2 _ _ _ _ _].
  unfold open_count. fold (cnt (cl_open s) (p_next s)). lia.
Qed.
