(** Lemmas for the true parts of C61 and C67. *)
From Verif Require Import Bytes Crypto Wire Client ClientSeq ClientConc Pool SpecPool Life SpecLife SpecPartial LifeProofs LifeInv.

(** ** C67 *)
Definition late_dgrams (s : lst) : Prop := forall post k pre, l_trace s = post ++ (k, EQuit) :: pre ->
  forall a, (dgrams_of a post <= 1)%nat /\ (l_pc s a = PRecv -> dgrams_of a post = 0%nat).
Lemma dgrams_cons a i e l : dgrams_of a ((i, e) :: l) =
  ((if Nat.eqb i a && match e with EDgram => true | _ => false end then 1 else 0) + dgrams_of a l)%nat.
Proof. unfold dgrams_of. cbn [filter fst snd]. destruct (_ && _); reflexivity. Qed.
Lemma late_dgrams_reach s : lreach s -> late_dgrams s.
Proof.
  induction 1 as [|s i c s' R IH D]; intros post k pre T; [destruct post; discriminate T|].
  pose proof (proj1 (quit_in_trace s R)) as Qt.
  destruct (step_next s i c s' D) as (oe & E & N). rewrite E in T.
  assert (X : (exists p, post = ev_list i oe ++ p /\ l_trace s = p ++ (k, EQuit) :: pre) \/ post = []).
  { destruct oe as [e|]; cbn [ev_list app] in *; [|eauto]. destruct post as [|x p]; [auto|]. cbn [app] in T. injection T as <- T. eauto. }
  destruct X as [(p & -> & Tp)| ->].
  2:{ intros a; split; [cbn; lia|reflexivity]. }
  assert (Q : l_quit s = true) by (apply Qt; exists k; rewrite Tp; apply in_app_iff; right; left; reflexivity).
  pose proof (IH _ _ _ Tp) as H1. rewrite Q in N.
  intros a. destruct (Nat.eq_dec a i) as [->|Ne].
  - destruct N as [(_ & N1 & N2)|(_ & N)].
    + rewrite N1. assert (C0 : dgrams_of i (ev_list i oe ++ p) = dgrams_of i p).
      { destruct N2 as [[_ ->]|[[-> _]|[-> _]]]; cbn [ev_list app]; rewrite ?dgrams_cons, ?Bool.andb_false_r; reflexivity. }
      rewrite C0. apply H1.
    + destruct oe as [e|]; cbn [ev_list app].
      * rewrite dgrams_cons, Nat.eqb_refl. cbn [andb]. destruct e; cbn [Nat.add]; (split; [|intros X; rewrite X in N; inversion N; fail]).
        all: try apply H1. inversion N. rewrite (proj2 (H1 i)) by auto. lia.
      * split; [apply H1|]. intros X. rewrite X in N. inversion N; subst.
  - assert (C0 : dgrams_of a (ev_list i oe ++ p) = dgrams_of a p).
    { destruct oe as [e|]; [|reflexivity]. cbn [ev_list app]. rewrite dgrams_cons. destruct (Nat.eqb_spec i a); [congruence|reflexivity]. }
    rewrite C0. split; [apply H1|]. intros X. apply H1.
    destruct (step_other s i c s' a D Ne) as [Z|(_ & [(_ & Z & _)|(_ & Z)])]; congruence.
Qed.

(** ** C61 *)
Lemma got_alive mi mo s : preachable mi mo s -> forall post i c pre, p_trace s = post ++ (i, EGot c) :: pre ->
  exists pre', pre = (i, ETest c true) :: pre' \/ pre = (i, EDial c) :: pre'.
Proof.
  induction 1 as [|s s' i R IH St]; intros post j d pre T; [destruct post; discriminate T|].
  assert (G : forall ev, p_trace s' = map (fun e => (i, e)) ev ++ p_trace s -> Forall (fun e => match e with EGot _ => False | _ => True end) ev ->
     exists pre', pre = (j, ETest d true) :: pre' \/ pre = (j, EDial d) :: pre').
  { intros ev E F. rewrite E in T. clear E St. revert post T. induction F as [|e ev Fe _ IHF]; intros post T; [exact (IH _ _ _ _ T)|].
    cbn [map app] in T. destruct post as [|x post]; cbn [app] in T.
    - injection T as _ X _. rewrite X in Fe. destruct Fe.
    - injection T as _ T. exact (IHF _ T). }
  assert (G2 : forall e c, p_trace s' = (i, EGot c) :: (i, e c) :: p_trace s -> (e = EDial \/ e = fun c => ETest c true) ->
     exists pre', pre = (j, ETest d true) :: pre' \/ pre = (j, EDial d) :: pre').
  { intros e c E X. rewrite E in T. destruct post as [|x post]; cbn [app] in T.
    - injection T as -> -> <-. destruct X as [-> | ->]; eauto.
    - injection T as _ T. destruct post as [|y post]; cbn [app] in T; [injection T as _ Y _; destruct X as [-> | ->]; discriminate Y|].
      injection T as _ T. exact (IH _ _ _ _ T). }
  assert (Sh : forall l z, p_trace (shut_all z l) = p_trace z) by (induction l as [|x l IHl]; intros z; [reflexivity|exact (IHl (shut z x))]).
  assert (Fs : forall l, Forall (fun e => match e with EGot _ => False | _ => True end) (shut_events l)).
  { intros l. unfold shut_events. apply Forall_rev. induction l; cbn; constructor; auto. }
  destruct St;
    try (match goal with H : p_trace (p_to ?z ?i0 ?p ?ev) = _ |- _ => eapply (G ev); [cbn; rewrite ?Sh; reflexivity|repeat constructor; apply Fs] end; fail).
  - exact (G [] eq_refl ltac:(constructor)).
  - exact (G2 (fun c => ETest c true) c eq_refl (or_intror eq_refl)).
  - apply (G2 EDial (p_next s)); [|auto]. unfold dialled. destruct (p_session s); reflexivity.
Qed.
