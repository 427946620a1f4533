From Verif Require Import Bytes ClientConc Life SpecLife LifeProofs LifeInv LifeWait.

Lemma lrun_reach l : forall s s', lreach s -> lrun s l = Some s' -> lreach s'.
Proof.
  induction l as [|[i c] l IH]; intros s s' R H; cbn in H; [congruence|]. destruct (ldo s i c) as [s1|] eqn:D; [|discriminate H].
  eapply IH; [econstructor; eassumption|exact H].
Qed.
Definition lafter (l : list (nat * choice)) : lst := match lrun l0 l with Some s => s | None => l0 end.
Lemma lafter_reach l : lreach (lafter l).
Proof. unfold lafter. destruct (lrun l0 l) eqn:E; [eapply lrun_reach; [apply LInit|exact E]|apply LInit]. Qed.

(** A schedule in which the TCP listener 0 has a connection, handled by 1, that is
    waiting for a request, and accepts another one. *)
Definition ex_open : list (nat * choice) :=
  [(0, ChTCP); (0, ChOk); (0, ChOk); (0, ChOk); (0, ChNew 1); (1, ChOk); (1, ChOk); (1, ChOk); (1, ChOk); (0, ChOk)]%nat.
(** Close (goroutine 2) is called, waits, the connection ends. *)
Definition ex_closing : list (nat * choice) := ex_open ++ [(2, ChClose); (2, ChOk); (2, ChOk)]%nat.
Definition ex_closed : list (nat * choice) := ex_closing ++ [(1, ChErr); (1, ChOk); (1, ChOk); (1, ChOk); (1, ChOk); (2, ChOk); (2, ChOk)]%nat.
(** The same with a second connection accepted meanwhile. *)
Definition ex_crash : list (nat * choice) :=
  ex_open ++ [(0, ChOk); (2, ChClose); (2, ChOk); (2, ChOk); (1, ChErr); (1, ChOk); (1, ChOk); (0, ChOk)]%nat.
Definition ex_panic : list (nat * choice) :=
  ex_open ++ [(0, ChOk); (2, ChClose); (2, ChOk); (2, ChOk); (1, ChErr); (1, ChOk); (1, ChOk); (1, ChOk); (1, ChOk); (0, ChOk); (2, ChOk); (2, ChOk)]%nat.
(** A UDP listener (0), Close (1), a datagram that arrives then (2). *)
Definition ex_udp : list (nat * choice) :=
  [(0, ChUDP); (0, ChOk); (1, ChClose); (1, ChOk); (1, ChOk); (0, ChOk); (0, ChNew 2); (2, ChOk)]%nat.

Lemma late_connections s post k pre : lreach s -> l_trace s = post ++ (k, EQuit) :: pre ->
  (forall a, (count_of a post <= 1)%nat) /\
  (forall a j, In (a, ESpawn j) post -> ~ In (j, ERead) (l_trace s)).
Proof.
  intros R T. destruct (late_reach s R post k pre T) as [A B]. split; [intros a; apply A|intros a j I; apply (B a j I)].
Qed.

Lemma udp_after_close s i j : l_crashed s = false -> l_pc s i = PRecv -> l_pc s j = TNone ->
  exists s', lrun s [(i, ChOk); (i, ChNew j); (j, ChOk)] = Some s' /\
    l_trace s' = (j, EDHandle) :: (i, EDgram) :: l_trace s.
Proof.
  intros Cr Pi Pj. assert (Nij : i <> j) by (intros ->; congruence).
  assert (Nb : Nat.eqb j i = false) by (apply Nat.eqb_neq; auto).
  assert (Nb' : Nat.eqb i j = false) by (apply Nat.eqb_neq; auto).
  cbn [lrun]. unfold ldo at 1. rewrite Cr, Pi.
  unfold ldo at 1. cbn. unfold upd. rewrite Cr, Nat.eqb_refl, ?Nb, ?Nb', Pj.
  unfold ldo. cbn. unfold upd. rewrite Cr, ?Nb, ?Nb', ?Nat.eqb_refl. cbn.
  eexists. split; reflexivity.
Qed.
Lemma ex_udp_before : lreach (lafter (firstn 5 ex_udp)) /\ l_crashed (lafter (firstn 5 ex_udp)) = false /\
  l_pc (lafter (firstn 5 ex_udp)) 0%nat = PRecv /\ l_pc (lafter (firstn 5 ex_udp)) 2%nat = TNone /\
  In (1%nat, EReturned) (l_trace (lafter (firstn 5 ex_udp))).
Proof. split; [apply lafter_reach|]. vm_compute. auto 6. Qed.

Lemma close_may_crash : (exists s, lreach s /\ l_crashed s = true /\ exists k, l_pc s k = KBlocked) /\
  (exists s k, lreach s /\ l_pc s k = KPanicked /\ forall k', In (k', EQuit) (l_trace s) -> k' = k).
Proof.
  split.
  - exists (lafter ex_crash). split; [apply lafter_reach|]. split; [vm_compute; reflexivity|]. exists 2%nat. vm_compute. reflexivity.
  - exists (lafter ex_panic), 2%nat. split; [apply lafter_reach|]. split; [vm_compute; reflexivity|].
    intros k' I.
    assert (T : l_trace (lafter ex_panic) = [(2, EPanic); (0, EAdd); (1, EConnClosed); (2, EQuit); (0, EAccept); (1, EHandle); (1, ERead); (0, ESpawn 1); (0, EAdd); (0, EAccept)]%nat) by (vm_compute; reflexivity).
    rewrite T in I. repeat (destruct I as [I|I]; [congruence|]). destruct I.
Qed.

Lemma close_twice s k : lreach s -> l_crashed s = false -> l_pc s k = KClose -> l_quit s = true ->
  (exists c, ldo s k c <> None) /\ forall c s', ldo s k c = Some s' -> l_pc s' k = KPanicked.
Proof.
  intros _ Cr P Q. split.
  - exists ChOk. unfold ldo. rewrite Cr, P. discriminate.
  - intros c s' D. unfold ldo in D. rewrite Cr, P, Q in D. destruct c; try discriminate D.
    injection D as <-. cbn. apply upd_same.
Qed.

Lemma unserved_stays s s' a : unserved a s s' -> l_pc s a = AAccept \/ l_pc s a = HRead -> l_pc s' a = l_pc s a.
Proof.
  induction 1 as [|s i c s1 s' D N H IH]; intros P; [reflexivity|].
  assert (X : l_pc s1 a = l_pc s a).
  { destruct (Nat.eq_dec a i) as [->|Ne].
    - exfalso. unfold ldo in D. destruct (l_crashed s); [discriminate D|].
      destruct P as [P|P]; rewrite P in D, N; destruct c; try discriminate D; apply N; auto.
    - destruct (step_other s i c s1 a D Ne) as [X|(X & _)]; [exact X|destruct P; congruence]. }
  rewrite <- X. apply IH. rewrite X. exact P.
Qed.
Lemma unserved_reach s s' a : unserved a s s' -> lreach s -> lreach s'.
Proof. induction 1 as [|s i c s1 s' D N H IH]; intros R; [exact R|]. apply IH. econstructor; eassumption. Qed.
Lemma port_kept : exists s k a, lreach s /\ l_pc s k = KReturned /\ l_pc s a = AAccept /\ forall s', unserved a s s' -> l_pc s' a = AAccept.
Proof.
  exists (lafter ex_closed), 2%nat, 0%nat. split; [apply lafter_reach|]. split; [vm_compute; reflexivity|].
  assert (A : l_pc (lafter ex_closed) 0%nat = AAccept) by (vm_compute; reflexivity). split; [exact A|].
  intros s' H. rewrite <- A. apply unserved_stays; [exact H|left; exact A].
Qed.

Lemma silent_client_blocks s j k : lreach s -> l_pc s j = HRead -> ~ In (k, EReturned) (l_trace s).
Proof.
  intros R P I. apply in_split in I as (l1 & l2 & E). destruct (done_reach s R _ _ _ E) as [[_ Q] _]. specialize (Q j). rewrite P in Q. discriminate Q.
Qed.
Lemma silent_client : (exists s j k, lreach s /\ l_pc s j = HRead /\ l_pc s k = KBlocked) /\
  forall s j s', lreach s -> l_pc s j = HRead -> unserved j s s' -> l_pc s' j = HRead /\ forall k, ~ In (k, EReturned) (l_trace s').
Proof.
  split.
  - exists (lafter ex_closing), 1%nat, 2%nat. split; [apply lafter_reach|]. vm_compute. split; reflexivity.
  - intros s j s' R P U. pose proof (unserved_stays s s' j U (or_intror P)) as E. rewrite P in E. split; [exact E|].
    intros k. apply (silent_client_blocks s' j k); [apply (unserved_reach s s' j U R)|exact E].
Qed.

Definition ex_closed_trace : list (nat * lev) :=
  [(2, EReturned); (1, EConnClosed); (2, EQuit); (1, EHandle); (1, ERead); (0, ESpawn 1); (0, EAdd); (0, EAccept)]%nat.
Lemma ex_closed_tr : l_trace (lafter ex_closed) = ex_closed_trace.
Proof. vm_compute. reflexivity. Qed.
Lemma ex_closed_ok : no_late_add (l_trace (lafter ex_closed)).
Proof.
  rewrite ex_closed_tr. intros post k pre a E I. unfold ex_closed_trace in E.
  do 3 (destruct post as [|? post]; [cbn in I; intuition discriminate|cbn [app] in E; injection E as <- E]).
  assert (X : In (k, EQuit) (post ++ (k, EQuit) :: pre)) by (apply in_or_app; right; left; reflexivity). rewrite <- E in X.
  cbn in X. intuition discriminate.
Qed.

(** ** Close waits for the connections *)
Definition before_close (p : lpc) : bool := match p with HQuit | HRead | HHandle | HClose => true | _ => false end.
Definition conn_inv (s : lst) : Prop := forall a j, In (a, ESpawn j) (l_trace s) ->
  In (j, EConnClosed) (l_trace s) \/ before_close (l_pc s j) = true.
Lemma conn_reach s : lreach s -> conn_inv s.
Proof.
  induction 1 as [|s i c s' R IH D]; intros a j I; [destruct I|].
  destruct (step_next s i c s' D) as (oe & T & _).
  assert (Old : In (a, ESpawn j) (l_trace s) -> In (j, EConnClosed) (l_trace s') \/ before_close (l_pc s' j) = true).
  { intros I0. destruct (IH a j I0) as [X|X]; [left; rewrite T; apply in_or_app; right; exact X|].
    destruct (Nat.eq_dec j i) as [->|Ne].
    - steps_of D; try discriminate X.
      all: injection D as <-; lsim; rewrite ?upd_same; auto.
      + right. destruct (l_quit s); reflexivity.
      + left. left. reflexivity.
    - destruct (step_other s i c s' j D Ne) as [Y|(Y & _)]; [right; rewrite Y; exact X|]. rewrite Y in X. discriminate X. }
  rewrite T in I. apply in_app_or in I as [I|I]; [|apply Old, I]. destruct oe as [e|]; [|destruct I].
  cbn in I. destruct I as [I|[]]. injection I as -> ->.
  destruct (step_spawn s a c s' j D T) as (_ & _ & Y). right. rewrite Y. reflexivity.
Qed.
Lemma before_serving p : before_close p = true -> serving p = true.
Proof. destruct p; try discriminate; reflexivity. Qed.
Lemma close_waits s post k pre : lreach s -> l_trace s = post ++ (k, EReturned) :: pre ->
  forall a j, In (a, ESpawn j) pre -> In (j, EConnClosed) pre.
Proof.
  intros R. revert post. induction R as [|s i c s' R IH D]; intros post T a j I; [destruct post; discriminate T|].
  destruct (trace_step s i c s' D) as [E|(e & E & _ & Hr)]; rewrite E in T; [eapply IH; eassumption|].
  destruct post as [|x post]; cbn [app] in T; [|injection T as <- T; eapply IH; eassumption].
  injection T as <- -> <-. destruct (Hr eq_refl) as [V _]. destruct (conn_reach s R a j I) as [X|X]; [exact X|].
  apply before_serving in X. destruct (winv_reach s R (step_crashed _ _ _ _ D)) as [W _]. rewrite V in W.
  rewrite (counted_none _ j W) in X. discriminate X.
Qed.
