From Verif Require Import Bytes ClientConc Life SpecLife LifeProofs.

(** ** What a step does to its goroutine, to others and to the trace *)
Inductive lnext (q : bool) : lpc -> option lev -> lpc -> Prop :=
| NTcp : lnext q TNone None AQuit
| NUdp : lnext q TNone None PQuit
| NCls : lnext q TNone None KClose
| NAQuit : lnext q AQuit None (if q then AEnd else AAccept)
| NAccept : lnext q AAccept (Some EAccept) AAdd
| NAcceptErr : lnext q AAccept None AQuit
| NAdd : lnext q AAdd (Some EAdd) ASpawn
| NSpawn j : lnext q ASpawn (Some (ESpawn j)) AQuit
| NHQuit : lnext q HQuit None (if q then HClose else HRead)
| NRead : lnext q HRead (Some ERead) HHandle
| NReadErr : lnext q HRead None HClose
| NHandle : lnext q HHandle (Some EHandle) HQuit
| NHandleErr : lnext q HHandle (Some EHandle) HClose
| NClosed : lnext q HClose (Some EConnClosed) HDone
| NDone : lnext q HDone None HEnd
| NDoneLast w : lnext q HDone None (HLast w)
| NLast w : lnext q (HLast w) None (HRel w)
| NRel w : lnext q (HRel w) None HEnd
| NPQuit : lnext q PQuit None (if q then PEnd else PRecv)
| NRecv : lnext q PRecv (Some EDgram) PSpawn
| NRecvErr : lnext q PRecv None PQuit
| NPSpawn : lnext q PSpawn None PQuit
| NDHandle : lnext q DHandle (Some EDHandle) DEnd
| NDErr : lnext q DHandle None DEnd
| NClose : q = false -> lnext q KClose (Some EQuit) KWait
| NCloseAgain : q = true -> lnext q KClose (Some EPanic) KPanicked
| NWaitRet : lnext q KWait (Some EReturned) KReturned
| NWaitBlock : lnext q KWait None KBlocked
| NWoken : lnext q KBlocked None KWoken
| NRet : lnext q KWoken (Some EReturned) KReturned
| NPanic : lnext q KWoken (Some EPanic) KPanicked.

Definition ev_list (i : nat) (oe : option lev) : list (nat * lev) := match oe with Some e => [(i, e)] | None => [] end.

Lemma step_next s i c s' : ldo s i c = Some s' -> exists oe, l_trace s' = ev_list i oe ++ l_trace s /\
  ((l_crashed s' = true /\ l_pc s' = l_pc s /\ (l_pc s i = AAdd /\ oe = Some EAdd \/ oe = None /\ releasing (l_pc s i) = true \/ oe = None /\ l_pc s i = HDone)) \/
   (l_crashed s' = false /\ lnext (l_quit s) (l_pc s i) oe (l_pc s' i))).
Proof.
  intros D. steps_of D.
  all: try (injection D as <-; eexists; lsim; split; [first [instantiate (1 := None); reflexivity|instantiate (1 := Some _); reflexivity]|];
     right; split; [exact Cr|]; rewrite upd_same; constructor; fail).
  - injection D as <-. exists (Some EAdd). destruct (_ && _); lsim; (split; [reflexivity|]).
    + left. auto.
    + right. split; [exact Cr|]. rewrite upd_same. constructor.
  - destruct (l_pc s j) eqn:Pj; try discriminate D. injection D as <-. exists (Some (ESpawn j)). lsim. split; [reflexivity|]. right.
    split; [exact Cr|]. rewrite upd_same. constructor.
  - injection D as <-. exists None. split; [destruct (_ <? _)%Z; [|destruct (_ || _)]; reflexivity|].
    destruct (_ <? _)%Z; [left; lsim; auto 6|]. right. destruct (_ || _); lsim; (split; [exact Cr|]; rewrite upd_same; constructor).
  - injection D as <-. exists None. split; [destruct (_ && _); reflexivity|]. destruct (_ && _); lsim.
    + right. split; [exact Cr|]. rewrite upd_same. constructor.
    + left. auto 6.
  - destruct (l_pc s j) eqn:Pj; try discriminate D. injection D as <-. exists None. lsim. split; [reflexivity|]. right.
    split; [exact Cr|]. rewrite upd_same. constructor.
  - injection D as <-. destruct (l_quit s) eqn:Q; lsim.
    + exists (Some EPanic). split; [reflexivity|]. right. split; [exact Cr|]. rewrite upd_same. constructor. reflexivity.
    + exists (Some EQuit). split; [reflexivity|]. right. split; [exact Cr|]. rewrite upd_same. constructor. reflexivity.
  - injection D as <-. destruct (_ =? _)%Z; lsim.
    + exists (Some EReturned). split; [reflexivity|]. right. split; [exact Cr|]. rewrite upd_same. constructor.
    + exists None. split; [reflexivity|]. right. split; [exact Cr|]. rewrite upd_same. constructor.
  - destruct (l_sema s); [discriminate D|]. injection D as <-. exists None. lsim. split; [reflexivity|]. right. split; [exact Cr|]. rewrite upd_same. constructor.
  - injection D as <-. destruct (_ && _); lsim.
    + exists (Some EReturned). split; [reflexivity|]. right. split; [exact Cr|]. rewrite upd_same. constructor.
    + exists (Some EPanic). split; [reflexivity|]. right. split; [exact Cr|]. rewrite upd_same. constructor.
Qed.

Lemma step_other s i c s' j : ldo s i c = Some s' -> j <> i ->
  l_pc s' j = l_pc s j \/ (l_pc s j = TNone /\
    ((l_pc s i = ASpawn /\ l_pc s' j = HQuit /\ l_trace s' = (i, ESpawn j) :: l_trace s) \/ (l_pc s i = PSpawn /\ l_pc s' j = DHandle))).
Proof.
  intros D Ne. assert (U : forall p, upd (l_pc s) i p j = l_pc s j) by (intros p; apply upd_other, Ne).
  steps_of D.
  all: try (injection D as <-; left; repeat match goal with |- context [if ?b then _ else _] => destruct b end; lsim; auto; fail).
  - destruct (l_pc s j0) eqn:Pj; try discriminate D. injection D as <-. lsim. rewrite upd_other by exact Ne.
    destruct (Nat.eq_dec j j0) as [->|Nj]; [|left; apply upd_other, Nj]. right. split; [exact Pj|]. left. rewrite upd_same. auto.
  - destruct (l_pc s j0) eqn:Pj; try discriminate D. injection D as <-. lsim. rewrite upd_other by exact Ne.
    destruct (Nat.eq_dec j j0) as [->|Nj]; [|left; apply upd_other, Nj]. right. split; [exact Pj|]. right. rewrite upd_same. auto.
  - left. destruct (l_sema s); [discriminate D|]. injection D as <-. lsim. apply U.
Qed.
Lemma step_spawn s i c s' j : ldo s i c = Some s' -> l_trace s' = (i, ESpawn j) :: l_trace s -> j <> i /\ l_pc s j = TNone /\ l_pc s' j = HQuit.
Proof.
  intros D T. assert (N : l_trace s <> (i, ESpawn j) :: l_trace s) by (intros X; apply (f_equal (@length _)) in X; cbn in X; lia).
  unfold ldo in D. destruct (l_crashed s); [discriminate D|]. destruct (l_pc s i) eqn:P.
  all: try (destruct c; try discriminate D; injection D as <-; repeat match goal with H : context [if ?b then _ else _] |- _ => destruct b end; lsim; congruence).
  - destruct c; try discriminate D. destruct (l_pc s j0) eqn:Pj; try discriminate D. injection D as <-. lsim. injection T as ->.
    split; [congruence|]. split; [exact Pj|]. rewrite upd_other by congruence. apply upd_same.
  - destruct c; try discriminate D. destruct (l_pc s j0) eqn:Pj; try discriminate D. injection D as <-. lsim. congruence.
  - destruct c; try discriminate D. destruct (l_sema s); [discriminate D|]. injection D as <-. lsim. congruence.
Qed.
Lemma quit_step s i c s' : ldo s i c = Some s' -> l_quit s' = l_quit s || match l_pc s i with KClose => true | _ => false end.
Proof.
  intros D. unfold ldo in D. destruct (l_crashed s); [discriminate D|]. destruct (l_pc s i) eqn:P.
  all: try (destruct c; try discriminate D; injection D as <-; lsim; rewrite ?Bool.orb_false_r; reflexivity).
  all: try (destruct c; try discriminate D; injection D as <-; repeat match goal with |- context [if ?b then _ else _] => destruct b end; lsim; rewrite ?Bool.orb_false_r; reflexivity).
  - destruct c; try discriminate D. destruct (l_pc s j) eqn:Pj; try discriminate D. injection D as <-. lsim. now rewrite Bool.orb_false_r.
  - destruct c; try discriminate D. destruct (l_pc s j) eqn:Pj; try discriminate D. injection D as <-. lsim. now rewrite Bool.orb_false_r.
  - destruct c; try discriminate D. injection D as <-. destruct (l_quit s) eqn:Q; lsim; [rewrite Q|]; reflexivity.
  - destruct c; try discriminate D. destruct (l_sema s); [discriminate D|]. injection D as <-. lsim. now rewrite Bool.orb_false_r.
Qed.
Lemma step_crashed s i c s' : ldo s i c = Some s' -> l_crashed s = false.
Proof. unfold ldo. destruct (l_crashed s); [discriminate|reflexivity]. Qed.

(** ** Finitely many goroutines, and no events of those that do not exist *)
Definition finite (s : lst) : Prop := exists n, forall j, (n <= j)%nat -> l_pc s j = TNone.
Lemma finite_reach s : lreach s -> finite s.
Proof.
  induction 1 as [|s i c s' R IH D]; [exists 0%nat; reflexivity|]. destruct IH as [n H].
  exists (Nat.max n (S (Nat.max i match c with ChNew j => j | _ => 0 end))). intros j Hj.
  destruct (step_other s i c s' j D ltac:(lia)) as [->|(_ & Z)]; [apply H; lia|]. exfalso. unfold ldo in D. destruct (l_crashed s); [discriminate D|].
  destruct Z as [(P & Q & _)|(P & Q)]; rewrite P in D; destruct c; try discriminate D;
    (destruct (l_pc s j0); try discriminate D; injection D as <-; lsim; rewrite !upd_other in Q by lia; rewrite H in Q by lia; discriminate Q).
Qed.

Definition silent_none (s : lst) : Prop := forall j e, l_pc s j = TNone -> ~ In (j, e) (l_trace s).
Lemma silent_reach s : lreach s -> silent_none s.
Proof.
  induction 1 as [|s i c s' R IH D]; [intros j e _ []|]. intros j e P I. destruct (step_next s i c s' D) as (oe & E & N).
  rewrite E in I. apply in_app_iff in I. destruct (Nat.eq_dec j i) as [->|Ne].
  - destruct N as [(_ & N1 & N2)|(_ & N)].
    + rewrite N1 in P. rewrite P in N2. destruct N2 as [[X _]|[[_ X]|[_ X]]]; discriminate X.
    + rewrite P in N. remember TNone as p eqn:Ep. clear - N Ep. destruct N; try discriminate Ep; destruct (l_quit s); discriminate Ep.
  - destruct I as [I|I]; [destruct oe; [destruct I as [X|[]]; congruence|destruct I]|].
    destruct (step_other s i c s' j D Ne) as [X|(X & _)]; apply (IH j e); congruence.
Qed.

(** ** The channel, once closed *)
Lemma quit_in_trace s : lreach s -> (exists k, In (k, EQuit) (l_trace s)) <-> l_quit s = true.
Proof.
  induction 1 as [|s i c s' R IH D]; [split; [intros [k []]|discriminate]|]. destruct (step_next s i c s' D) as (oe & E & N).
  rewrite E, (quit_step s i c s' D). split.
  - intros [k I]. apply in_app_iff in I as [I|I]; [|rewrite (proj1 IH (ex_intro _ k I)); reflexivity].
    destruct oe as [e|]; [destruct I as [X|[]]|destruct I]. injection X as -> ->.
    destruct N as [(_ & _ & [[_ X]|[[X _]|[X _]]])|(_ & N)]; [discriminate X|discriminate X|discriminate X|]. inversion N; subst. apply Bool.orb_true_r.
  - intros Q. destruct (l_quit s) eqn:Q0.
    + destruct (proj2 IH eq_refl) as [k I]. exists k. apply in_app_iff. auto.
    + cbn [orb] in Q. destruct (l_pc s i) eqn:P; try discriminate Q. exists i. destruct N as [(_ & _ & [[X _]|[[_ X]|[_ X]]])|(_ & N)]; [discriminate X|discriminate X|discriminate X|].
      inversion N; subst; [left; reflexivity|congruence].
Qed.

(** ** Connections that come late *)
Definition late_pc (p : lpc) : bool := match p with HQuit | HClose | HDone | HLast _ | HRel _ | HEnd => true | _ => false end.
Definition late_inv (s : lst) : Prop := forall post k pre, l_trace s = post ++ (k, EQuit) :: pre ->
  (forall a, (count_of a post <= 1)%nat /\ (l_pc s a = AAccept -> count_of a post = 0%nat)) /\
  (forall a j, In (a, ESpawn j) post -> late_pc (l_pc s j) = true /\ ~ In (j, ERead) (l_trace s)).

Lemma count_cons a i e l : count_of a ((i, e) :: l) =
  ((if Nat.eqb i a && match e with EAccept => true | _ => false end then 1 else 0) + count_of a l)%nat.
Proof. unfold count_of. cbn [filter fst snd]. destruct (_ && _); reflexivity. Qed.

Lemma late_reach s : lreach s -> late_inv s.
Proof.
  induction 1 as [|s i c s' R IH D]; intros post k pre T; [destruct post; discriminate T|].
  pose proof (silent_reach s R) as Sil. pose proof (proj1 (quit_in_trace s R)) as Qt.
  destruct (step_next s i c s' D) as (oe & E & N). rewrite E in T.
  assert (X : (exists p, post = ev_list i oe ++ p /\ l_trace s = p ++ (k, EQuit) :: pre) \/ post = []).
  { destruct oe as [e|]; cbn [ev_list app] in *; [|eauto]. destruct post as [|x p]; [auto|]. cbn [app] in T. injection T as <- T. eauto. }
  destruct X as [(p & -> & Tp)| ->].
  2:{ split; [intros a; split; [cbn; lia|reflexivity]|intros a j []]. }
  assert (Q : l_quit s = true) by (apply Qt; exists k; rewrite Tp; apply in_app_iff; right; left; reflexivity).
  destruct (IH _ _ _ Tp) as [H1 H2]. rewrite Q in N. split.
  - intros a. destruct (Nat.eq_dec a i) as [->|Ne].
    + destruct N as [(_ & N1 & N2)|(_ & N)].
      * rewrite N1. assert (C0 : count_of i (ev_list i oe ++ p) = count_of i p).
        { destruct N2 as [[_ ->]|[[-> _]|[-> _]]]; cbn [ev_list app]; rewrite ?count_cons, ?Bool.andb_false_r; reflexivity. }
        rewrite C0. apply H1.
      * destruct oe as [e|]; cbn [ev_list app].
        -- rewrite count_cons, Nat.eqb_refl. cbn [andb]. destruct e; cbn [Nat.add]; (split; [|intros X; rewrite X in N; inversion N; fail]).
           all: try apply H1. inversion N. rewrite (proj2 (H1 i)) by auto. lia.
        -- split; [apply H1|]. intros X. rewrite X in N. inversion N; subst.
    + assert (C0 : count_of a (ev_list i oe ++ p) = count_of a p).
      { destruct oe as [e|]; [|reflexivity]. cbn [ev_list app]. rewrite count_cons. destruct (Nat.eqb_spec i a); [congruence|reflexivity]. }
      rewrite C0. split; [apply H1|]. intros X. apply H1.
      destruct (step_other s i c s' a D Ne) as [Z|(_ & [(_ & Z & _)|(_ & Z)])]; congruence.
  - intros a j I. apply in_app_iff in I. rewrite E. destruct I as [I|I].
    + (* just spawned *)
      destruct oe as [e|]; [destruct I as [X|[]]|destruct I]. injection X as -> ->.
      destruct (step_spawn s a c s' j D E) as (Ne & P0 & ->). split; [reflexivity|].
      cbn [ev_list app]. intros [X|X]; [discriminate X|]. exact (Sil j ERead P0 X).
    + destruct (H2 a j I) as [L1 L2]. destruct (Nat.eq_dec j i) as [->|Ne].
      * destruct N as [(_ & N1 & N2)|(_ & N)].
        -- rewrite N1. split; [exact L1|]. intros X. apply in_app_iff in X as [X|X]; [|exact (L2 X)].
           destruct N2 as [[_ ->]|[[-> _]|[-> _]]]; [destruct X as [X|[]]; discriminate X|destruct X|destruct X].
        -- split.
           ++ clear - N L1. destruct N; try discriminate L1; reflexivity.
           ++ intros X. apply in_app_iff in X as [X|X]; [|exact (L2 X)]. destruct oe as [e|]; [destruct X as [X|[]]|destruct X].
              injection X as ->. clear - N L1. remember (Some ERead) as x eqn:Ex. destruct N; discriminate.
      * split.
        -- destruct (step_other s i c s' j D Ne) as [->|(Z & _)]; [exact L1|rewrite Z in L1; discriminate L1].
        -- intros X. apply in_app_iff in X as [X|X]; [|exact (L2 X)]. destruct oe as [e|]; [destruct X as [X|[]]; congruence|destruct X].
Qed.
