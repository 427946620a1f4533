(** An executable version of the pool's steps, to exhibit executions. *)
From Verif Require Import Bytes ClientConc Pool SpecPool PoolProofs PoolInv.

Inductive pact :=
| AGet | AGive (c : nat) | APoolClose | AUse (c : nat) (b : bytes)   (* calls *)
| AGo                  (* the next step, with everything going well *)
| ABad                 (* the test or the dial fails *)
| AHand (j : nat)      (* the put is received by [j] *).

Definition got_before (tr : list (nat * pev)) (c : nat) : bool :=
  existsb (fun x => match snd x with EGot d => Nat.eqb d c | _ => false end) tr.
Definition no_parked (n : nat) (s : pst) : bool :=
  forallb (fun j => match p_pc s j with TParked => false | _ => true end) (seq 0 n).

Definition pdo (n : nat) (mi mo : Z) (s : pst) (i : nat) (a : pact) : option pst :=
  if negb (Nat.ltb i n) then None else
  let free s' := match p_lock s with None => Some s' | Some _ => None end in
  match p_pc s i, a with
  | TIdle, AGet => Some (p_to s i TGet [])
  | TIdle, AGive c => if got_before (p_trace s) c then Some (p_to s i (TPut c KUser) [EGive c]) else None
  | TIdle, APoolClose => Some (p_to s i TClose [])
  | TIdle, AUse c b => if got_before (p_trace s) c then Some (set_buf s c b) else None
  | TGet, AGo => free (p_to (set_lock s (Some i)) i TLoop [])
  | TLoop, AGo =>
      match p_idle s with
      | c :: l => Some (p_to (set_lock (set_idle s l) None) i (TTest c false) [])
      | [] => if (p_num s <? mo)%Z then Some (p_to s i TDial []) else Some (p_to (set_lock s None) i TUnlocked [])
      end
  | TTest c w, AGo => Some (p_to s i TIdle [EGot c; ETest c true])
  | TTest c w, ABad => Some (p_to s i (TDead c w) [ETest c false])
  | TDead c w, AGo => Some (p_to s i (TPut c (KDead w)) [])
  | TAgain w, AGo => free (p_to (set_num (set_lock s (Some i)) (p_num s - 1)%Z) i (if w then TDial else TLoop) [])
  | TUnlocked, AGo => if p_closed s then Some (p_to s i TPanicked [EPanic]) else Some (p_to s i TParked [])
  | TParked, AGo => if p_closed s then Some (p_to s i TPanicked [EPanic]) else None
  | TDial, AGo => Some (p_to (set_lock (dialled s) None) i TIdle [EGot (p_next s); EDial (p_next s)])
  | TDial, ABad => Some (p_to (set_lock s None) i TIdle [EGetErr])
  | TPut c k, AGo => free (p_to (set_lock s (Some i)) i (TPutL c k) [])
  | TPutL c k, AHand j =>
      if p_closed s then None else
      match p_pc s j with
      | TParked => Some (p_to (p_to (set_lock s None) j (TTest c true) []) i (after_put k) [])
      | _ => None
      end
  | TPutL c k, AGo =>
      if p_closed s then Some (p_to (set_lock s None) i TPanicked [EPanic])
      else if negb (no_parked n s) then None
      else if (Z.of_nat (length (p_idle s)) <? mi)%Z
      then Some (p_to (set_lock (set_idle s (p_idle s ++ [c])) None) i (after_put k) [])
      else Some (p_to (shut (set_num (set_lock s None) (p_num s - 1)%Z) c) i (after_put k) [EShut c])
  | TClose, AGo => free (p_to (set_lock s (Some i)) i TCloseL [])
  | TCloseL, AGo =>
      if p_closed s
      then Some (p_to (set_lock (emptied (shut_all s (p_idle s))) None) i TPanicked (EPanic :: EPoolClosed :: shut_events (p_idle s)))
      else Some (p_to (set_lock (emptied (shut_all s (p_idle s))) None) i TIdle (EPoolClosed :: shut_events (p_idle s)))
  | _, _ => None
  end.

Fixpoint prun (n : nat) (mi mo : Z) (s : pst) (acts : list (nat * pact)) : option pst :=
  match acts with
  | [] => Some s
  | (i, a) :: r => match pdo n mi mo s i a with Some s' => prun n mi mo s' r | None => None end
  end.

Lemma got_before_spec tr c : got_before tr c = true -> exists j, In (j, EGot c) tr.
Proof.
  intros H. apply existsb_exists in H as ((j & e) & I & H). cbn in H. destruct e; try discriminate.
  apply Nat.eqb_eq in H as ->. exists j. exact I.
Qed.
Lemma no_parked_spec n s : (forall j, (n <= j)%nat -> p_pc s j = TIdle) -> no_parked n s = true -> forall j, p_pc s j <> TParked.
Proof.
  intros V H j E. destruct (le_lt_dec n j) as [G|G]; [rewrite (V j G) in E; discriminate|].
  unfold no_parked in H. rewrite forallb_forall in H. specialize (H j). rewrite E in H. discriminate H. apply in_seq. lia.
Qed.

Lemma pdo_sound n mi mo s i a s' : (forall j, (n <= j)%nat -> p_pc s j = TIdle) -> pdo n mi mo s i a = Some s' ->
  pstep mi mo s i s'.
Proof.
  intros V. unfold pdo. destruct (negb (Nat.ltb i n)); [discriminate|].
  destruct (p_pc s i) eqn:P; destruct a; try discriminate;
    repeat match goal with
    | |- context [match p_lock s with _ => _ end] => destruct (p_lock s) eqn:L; try discriminate
    | |- context [got_before ?t ?c] => destruct (got_before t c) eqn:G; try discriminate; apply got_before_spec in G
    | |- context [p_closed s] => destruct (p_closed s) eqn:Cl; try discriminate
    | |- context [match p_idle s with _ => _ end] => destruct (p_idle s) eqn:E
    | |- context [(?x <? ?y)%Z] => destruct (Z.ltb_spec x y)
    | |- context [negb (no_parked n s)] => destruct (no_parked n s) eqn:NP; cbn [negb]; try discriminate
    | |- context [match p_pc s ?j with _ => _ end] => destruct (p_pc s j) eqn:Q; try discriminate
    end;
    intros [= <-].
  all: try (econstructor; eassumption).
  all: try (apply SNil; auto; fail).
  all: try (apply SSurplus; auto; apply (no_parked_spec n s V NP)).
  all: try (apply SKeep; auto; apply (no_parked_spec n s V NP)).
Qed.
Lemma pdo_finite n mi mo s i a s' : (forall j, (n <= j)%nat -> p_pc s j = TIdle) -> pdo n mi mo s i a = Some s' ->
  forall j, (n <= j)%nat -> p_pc s' j = TIdle.
Proof.
  intros V H. pose proof (pdo_sound n mi mo s i a s' V H) as St. unfold pdo in H.
  destruct (Nat.ltb_spec i n) as [Li|]; [|discriminate]. clear H a.
  assert (F : forall p j, (n <= j)%nat -> upd (p_pc s) i p j = TIdle).
  { intros p j Hj. unfold upd. destruct (Nat.eqb_spec j i); [lia|auto]. }
  cases_of St; sim; auto.
  - destruct (dialled_fields s) as (_ & _ & _ & _ & _ & -> & _). auto.
  - intros x Hx. unfold upd at 1. destruct (Nat.eqb_spec x i); [lia|]. unfold upd. destruct (Nat.eqb_spec x j) as [->|]; [|auto].
    rewrite (V j Hx) in Q. discriminate.
Qed.
Lemma prun_sound n mi mo acts : forall s s', preachable mi mo s -> (forall j, (n <= j)%nat -> p_pc s j = TIdle) ->
  prun n mi mo s acts = Some s' -> preachable mi mo s' /\ forall j, (n <= j)%nat -> p_pc s' j = TIdle.
Proof.
  induction acts as [|(i & a) acts IH]; cbn; intros s s' R V H; [injection H as <-; auto|].
  destruct (pdo n mi mo s i a) as [s1|] eqn:E; [|discriminate].
  apply (IH s1 s'); [|apply (pdo_finite n mi mo s i a s1 V E)|exact H].
  apply (PNext _ _ s s1 i R), (pdo_sound n mi mo s i a s1 V E).
Qed.

(** The state a list of actions leads to. *)
Definition pafter (n : nat) (mi mo : Z) (acts : list (nat * pact)) : pst :=
  match prun n mi mo p0 acts with Some s => s | None => p0 end.
Definition pworks (n : nat) (mi mo : Z) (acts : list (nat * pact)) : bool :=
  match prun n mi mo p0 acts with Some _ => true | None => false end.
Lemma pafter_reach n mi mo acts : pworks n mi mo acts = true -> preachable mi mo (pafter n mi mo acts) /\
  forall j, (n <= j)%nat -> p_pc (pafter n mi mo acts) j = TIdle.
Proof.
  unfold pworks, pafter. destruct (prun n mi mo p0 acts) as [s|] eqn:E; [|discriminate]. intros _.
  apply (prun_sound n mi mo acts p0 s); [constructor|reflexivity|exact E].
Qed.

Fixpoint disciplinedb (tr : list (nat * pev)) : bool :=
  match tr with
  | [] => true
  | (_, EGive c) :: r => with_user r c && disciplinedb r
  | _ :: r => disciplinedb r
  end.
Lemma disciplinedb_spec tr : disciplinedb tr = true -> disciplined tr.
Proof.
  induction tr as [|(j & e) tr IH]; intros H post i c pre E; [destruct post; discriminate|].
  destruct post as [|x post]; cbn in E; injection E as E1 E2.
  - subst e tr. cbn in H. apply andb_prop in H as [H _]. exact H.
  - subst x tr. assert (D : disciplinedb (post ++ (i, EGive c) :: pre) = true).
    { destruct e; cbn in H; auto. apply andb_prop in H as [_ H]. exact H. }
    apply (IH D post i c pre eq_refl).
Qed.
Definition no_eventb (tr : list (nat * pev)) (bad : pev -> bool) : bool := forallb (fun x => negb (bad (snd x))) tr.
Lemma no_eventb_spec tr bad : no_eventb tr bad = true -> no_event tr bad.
Proof. intros H i e I. unfold no_eventb in H. rewrite forallb_forall in H. specialize (H (i, e) I). cbn in H. destruct (bad e); [discriminate|reflexivity]. Qed.
