(** Which clients of a pool share a session. *)
From Verif Require Import Bytes ClientConc Pool SpecPool PoolProofs PoolInv.

Definition is_dial (e : pev) : bool := match e with EDial _ => true | _ => false end.
Definition is_emptied (e : pev) : bool := match e with EPoolClosed => true | _ => false end.
Definition emptied_in (tr : list (nat * pev)) : bool := existsb (fun x => is_emptied (snd x)) tr.

(** What a step does to sessions. *)
Inductive sesstep (s s' : pst) : list pev -> Prop :=
| SsNone ev : existsb is_dial ev = false -> existsb is_emptied ev = false ->
    p_session s' = p_session s -> p_next s' = p_next s -> p_nexts s' = p_nexts s -> cl_session s' = cl_session s ->
    sesstep s s' ev
| SsDial : p_session s' = p_session (dialled s) -> p_next s' = p_next (dialled s) -> p_nexts s' = p_nexts (dialled s) ->
    cl_session s' = cl_session (dialled s) -> sesstep s s' [EGot (p_next s); EDial (p_next s)]
| SsEmpty ev : existsb is_dial ev = false -> existsb is_emptied ev = true ->
    p_session s' = None -> p_next s' = p_next s -> p_nexts s' = p_nexts s -> cl_session s' = cl_session s ->
    sesstep s s' ev.

Lemma shut_all_nexts l : forall s, p_nexts (shut_all s l) = p_nexts s.
Proof. induction l; intros s; [reflexivity|]; cbn; apply (IHl (shut s a)). Qed.
Lemma shut_events_not l f : (forall c, f (EShut c) = false) -> existsb f (shut_events l) = false.
Proof.
  intros H. apply not_true_is_false. intros E. apply existsb_exists in E as (e & I & E).
  apply in_shut_events in I as (c & -> & _). rewrite H in E. discriminate.
Qed.
Lemma pstep_ses mi mo s i s' : pstep mi mo s i s' -> exists ev, p_trace s' = ptr i ev (p_trace s) /\ sesstep s s' ev.
Proof.
  intros St. unfold ptr. cases_of St; sim.
  all: try (exists []; split; [reflexivity|apply SsNone; reflexivity]).
  all: try (eexists [_]; split; [reflexivity|apply SsNone; reflexivity]).
  all: try (eexists [_; _]; split; [reflexivity|apply SsNone; reflexivity]).
  - eexists [_; _]. split; [|apply SsDial; reflexivity].
    destruct (dialled_fields s) as (_ & _ & _ & _ & _ & _ & -> & _). reflexivity.
  - exists (EPoolErr :: shut_events (a ++ [c])). split; [reflexivity|].
    apply SsNone; sim; rewrite ?shut_all_nexts; try reflexivity; cbn; apply shut_events_not; reflexivity.
  - exists (EPoolClosed :: shut_events (p_idle s)). split; [reflexivity|].
    apply SsEmpty; sim; rewrite ?shut_all_nexts; try reflexivity; cbn; apply shut_events_not; reflexivity.
  - exists (EPanic :: EPoolClosed :: shut_events (p_idle s)). split; [reflexivity|].
    apply SsEmpty; sim; rewrite ?shut_all_nexts; try reflexivity; cbn; apply shut_events_not; reflexivity.
Qed.

Record sinv (s : pst) : Prop := {
  si_dial : forall i c, In (i, EDial c) (p_trace s) -> (c < p_next s)%nat /\ (cl_session s c < p_nexts s)%nat;
  si_ses : forall x, p_session s = Some x -> (x < p_nexts s)%nat;
  si_now : forall post i c pre, p_trace s = post ++ (i, EDial c) :: pre ->
    if emptied_in post then forall x, p_session s = Some x -> (cl_session s c < x)%nat
    else p_session s = Some (cl_session s c);
  si_two : forall post i c mid j d pre, p_trace s = post ++ (i, EDial c) :: mid ++ (j, EDial d) :: pre ->
    if emptied_in mid then (cl_session s d < cl_session s c)%nat else cl_session s d = cl_session s c }.

(** Splitting a trace extended by events without a dial. *)
Lemma split_no_dial i ev tr post j c pre : existsb is_dial ev = false -> ptr i ev tr = post ++ (j, EDial c) :: pre ->
  exists post', post = map (fun e => (i, e)) ev ++ post' /\ tr = post' ++ (j, EDial c) :: pre.
Proof.
  unfold ptr. revert post. induction ev as [|e ev IH]; cbn [map app existsb]; intros post H E; [exists post; auto|].
  apply orb_false_iff in H as [H1 H2]. destruct post as [|x post]; cbn in E; injection E as E1 E2.
  - subst e. discriminate.
  - destruct (IH post H2 E2) as (post' & -> & ->). exists post'. subst x. auto.
Qed.
Lemma emptied_app a b : emptied_in (a ++ b) = emptied_in a || emptied_in b.
Proof. apply existsb_app. Qed.
Lemma emptied_ev i ev : emptied_in (map (fun e => (i, e)) ev) = existsb is_emptied ev.
Proof. unfold emptied_in. induction ev as [|e ev IH]; [reflexivity|]. cbn. rewrite IH. reflexivity. Qed.

Lemma sinv_reachable mi mo s : preachable mi mo s -> sinv s.
Proof.
  induction 1 as [|s s' i R [D Se No Tw] St].
  - split; cbn.
    + intros i c [].
    + discriminate.
    + intros [|? ?]; discriminate.
    + intros [|? ?]; discriminate.
  - destruct (pstep_ses _ _ _ _ _ St) as (ev & Et & SS). destruct SS as [ev V1 V2 E1 E2 E3 E4|E1 E2 E3 E4|ev V1 V2 E1 E2 E3 E4].
    + split; rewrite ?E1, ?E2, ?E3, ?E4, ?Et.
      * intros j c I. apply in_ptr in I as [[_ I]|I]; [|apply (D j c I)].
        exfalso. assert (X : existsb is_dial ev = true) by (apply existsb_exists; exists (EDial c); auto). congruence.
      * exact Se.
      * intros post j c pre E. apply split_no_dial in E as (post' & -> & E); [|exact V1].
        rewrite emptied_app, emptied_ev, V2. apply (No _ _ _ _ E).
      * intros post j c mid k d pre E. apply split_no_dial in E as (post' & -> & E); [|exact V1]. apply (Tw _ _ _ _ _ _ _ E).
    + assert (New : cl_session s' (p_next s) = match p_session s with Some x => x | None => p_nexts s end /\
        p_session s' = Some (cl_session s' (p_next s)) /\ (p_nexts s <= p_nexts s')%nat /\ (cl_session s' (p_next s) < p_nexts s')%nat).
      { rewrite E1, E3, E4. unfold dialled. destruct (p_session s) as [x|] eqn:P; cbn; unfold upd; rewrite Nat.eqb_refl; repeat split; auto; lia. }
      destruct New as (N1 & N2 & N3 & N4).
      assert (Old : forall c, (c < p_next s)%nat -> cl_session s' c = cl_session s c).
      { intros c Hc. rewrite E4. unfold dialled. destruct (p_session s); cbn; unfold upd; destruct (Nat.eqb_spec c (p_next s)); auto; lia. }
      assert (Nx : p_next s' = S (p_next s)) by (rewrite E2; apply dialled_fields).
      (* how the new client compares to the old ones *)
      assert (Cmp : forall post j c pre, p_trace s = post ++ (j, EDial c) :: pre ->
        if emptied_in post then (cl_session s' c < cl_session s' (p_next s))%nat else cl_session s' c = cl_session s' (p_next s)).
      { intros post j c pre E. specialize (No _ _ _ _ E).
        destruct (D j c) as [D1 D2]; [rewrite E; apply in_elt|]. rewrite (Old c D1), N1.
        destruct (emptied_in post).
        - destruct (p_session s) as [x|]; [apply No; reflexivity|exact D2].
        - rewrite No. reflexivity. }
      unfold ptr in Et. cbn [map app] in Et. split; rewrite ?Et.
      * intros j c [I|[I|I]]; [discriminate I|injection I as <- <-; rewrite Nx; split; [lia|exact N4]|].
        destruct (D j c I) as [D1 D2]. rewrite Nx, (Old c D1). split; lia.
      * intros x Hx. rewrite N2 in Hx. injection Hx as <-. exact N4.
      * intros post j c pre E. destruct post as [|x post]; cbn in E; [discriminate|]. injection E as <- E.
        destruct post as [|y post]; cbn in E.
        -- injection E as <- <- E. cbn. exact N2.
        -- injection E as E0 E. subst y. cbn. specialize (Cmp _ _ _ _ E). rewrite N2. fold (emptied_in post). destruct (emptied_in post).
           ++ intros x Hx. injection Hx as <-. exact Cmp.
           ++ congruence.
      * intros post j c mid k d pre E. destruct post as [|x post]; cbn in E; [discriminate|]. injection E as <- E.
        destruct post as [|y post]; cbn in E.
        -- injection E as <- <- E. apply (Cmp _ _ _ _ E).
        -- injection E as E0 E. specialize (Tw _ _ _ _ _ _ _ E). destruct (D j c) as [D1 _]; [rewrite E; apply in_elt|].
           destruct (D k d) as [D2 _]; [rewrite E; apply in_app_iff; right; right; apply in_elt|].
           rewrite (Old c D1), (Old d D2). exact Tw.
    + split; rewrite ?E1, ?E2, ?E3, ?E4, ?Et.
      * intros j c I. apply in_ptr in I as [[_ I]|I]; [|apply (D j c I)].
        exfalso. assert (X : existsb is_dial ev = true) by (apply existsb_exists; exists (EDial c); auto). congruence.
      * discriminate.
      * intros post j c pre E. apply split_no_dial in E as (post' & -> & E); [|exact V1].
        rewrite emptied_app, emptied_ev, V2. cbn. discriminate.
      * intros post j c mid k d pre E. apply split_no_dial in E as (post' & -> & E); [|exact V1]. apply (Tw _ _ _ _ _ _ _ E).
Qed.

Lemma emptied_in_spec tr : emptied_in tr = true <-> exists k, In (k, EPoolClosed) tr.
Proof.
  unfold emptied_in. rewrite existsb_exists. split.
  - intros ((k & e) & I & H). cbn in H. destruct e; try discriminate. exists k. exact I.
  - intros [k I]. exists (k, EPoolClosed). auto.
Qed.
Lemma session_fresh mi mo s post i c mid j d pre : preachable mi mo s ->
  p_trace s = post ++ (i, EDial c) :: mid ++ (j, EDial d) :: pre ->
  (cl_session s c = cl_session s d <-> forall k, ~ In (k, EPoolClosed) mid).
Proof.
  intros R E. pose proof (si_two _ (sinv_reachable _ _ _ R) _ _ _ _ _ _ _ E) as T.
  pose proof (emptied_in_spec mid) as M. destruct (emptied_in mid).
  - destruct (proj1 M eq_refl) as [k Hk]. split; intros H; [lia|]. destruct (H k Hk).
  - split; intros H; [|congruence]. intros k I. assert (false = true) by (apply M; eauto). discriminate.
Qed.

(** Two clients, then the pool is closed, then a third. *)
From Verif Require Import PoolExec PoolThms.
Definition ex_reopened : pst := pafter 2 1 2 (acts_get 0 ++ acts_get 1 ++ acts_give 0 0 ++ acts_close 1 ++ acts_get 0).
