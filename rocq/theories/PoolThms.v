From Verif Require Import Bytes Parser Crypto Kdf Client ClientSeq SpecClient ClientProps2 ClientConc Pool SpecPool PoolProofs PoolInv PoolExec Toy ClientExamples.

Definition acts_get (i : nat) : list (nat * pact) := [(i, AGet); (i, AGo); (i, AGo); (i, AGo)].
Definition acts_give (i c : nat) : list (nat * pact) := [(i, AGive c); (i, AGo); (i, AGo)].
Definition acts_close (i : nat) : list (nat * pact) := [(i, APoolClose); (i, AGo); (i, AGo)].
(** A Get that finds the first idle client dead, gives it back and takes it again. *)
Definition acts_get_dead (i : nat) : list (nat * pact) :=
  [(i, AGet); (i, AGo); (i, AGo); (i, ABad); (i, AGo); (i, AGo); (i, AGo); (i, AGo); (i, AGo); (i, AGo)].

Ltac reach A := let H := fresh in let F := fresh in destruct A as [H F]; [vm_compute; reflexivity|].

(** * More open connections than allowed *)
Definition ex_over : pst := pafter 2 1 1 (acts_get 0 ++ acts_give 0 0 ++ acts_get_dead 0 ++ acts_get 1).
Lemma ex_over_facts : preachable 1 1 ex_over /\ disciplined (p_trace ex_over) /\ no_event (p_trace ex_over) is_pool_close /\
  no_event (p_trace ex_over) is_panic /\ open_count ex_over = 2%Z.
Proof.
  split; [apply pafter_reach; vm_compute; reflexivity|].
  split; [apply disciplinedb_spec; vm_compute; reflexivity|].
  split; [apply no_eventb_spec; vm_compute; reflexivity|].
  split; [apply no_eventb_spec; vm_compute; reflexivity|]. vm_compute. reflexivity.
Qed.
Lemma over_max : ~ forall mi mo s, preachable mi mo s -> disciplined (p_trace s) -> no_event (p_trace s) is_pool_close ->
  (open_count s <= Z.max 0 mo)%Z.
Proof. intros H. destruct ex_over_facts as (R & D & N & _ & O). specialize (H 1%Z 1%Z _ R D N). rewrite O in H. lia. Qed.
(** Closing the pool while a client is out also loses count. *)
Definition ex_over_close : pst := pafter 2 1 1 (acts_get 0 ++ acts_close 1 ++ acts_get 1).
Lemma ex_over_close_facts : preachable 1 1 ex_over_close /\ disciplined (p_trace ex_over_close) /\
  no_event (p_trace ex_over_close) is_failed_test /\ open_count ex_over_close = 2%Z.
Proof.
  split; [apply pafter_reach; vm_compute; reflexivity|].
  split; [apply disciplinedb_spec; vm_compute; reflexivity|].
  split; [apply no_eventb_spec; vm_compute; reflexivity|]. vm_compute. reflexivity.
Qed.
Definition ex_two : pst := pafter 2 1 2 (acts_get 0 ++ acts_get 1 ++ acts_give 0 0).
Lemma ex_two_facts : preachable 1 2 ex_two /\ disciplined (p_trace ex_two) /\ no_event (p_trace ex_two) is_failed_test /\
  no_event (p_trace ex_two) is_pool_close /\ no_event (p_trace ex_two) is_panic /\
  open_count ex_two = 2%Z /\ p_idle ex_two = [0%nat] /\ with_user (p_trace ex_two) 1 = true /\
  In (0%nat, EGot 0) (p_trace ex_two) /\ In (1%nat, EGot 1) (p_trace ex_two).
Proof.
  split; [apply pafter_reach; vm_compute; reflexivity|].
  split; [apply disciplinedb_spec; vm_compute; reflexivity|].
  split; [apply no_eventb_spec; vm_compute; reflexivity|].
  split; [apply no_eventb_spec; vm_compute; reflexivity|].
  split; [apply no_eventb_spec; vm_compute; reflexivity|]. vm_compute. intuition.
Qed.

(** * A Get that waits for ever *)
Definition ex_stuck : pst :=
  pafter 2 1 1 (acts_get 0 ++ [(1%nat, AGet); (1%nat, AGo); (1%nat, AGo)] ++ acts_give 0 0 ++ [(1%nat, AGo)]).
Lemma ex_stuck_facts : preachable 1 1 ex_stuck /\ disciplined (p_trace ex_stuck) /\ no_event (p_trace ex_stuck) is_pool_close /\
  no_event (p_trace ex_stuck) is_failed_test /\ p_pc ex_stuck 1 = TParked /\ (forall j, j <> 1%nat -> p_pc ex_stuck j = TIdle) /\
  p_idle ex_stuck = [0%nat] /\ p_closed ex_stuck = false.
Proof.
  destruct (pafter_reach 2 1 1 (acts_get 0 ++ [(1%nat, AGet); (1%nat, AGo); (1%nat, AGo)] ++ acts_give 0 0 ++ [(1%nat, AGo)]))
    as [R F]; [vm_compute; reflexivity|].
  split; [exact R|].
  split; [apply disciplinedb_spec; vm_compute; reflexivity|].
  split; [apply no_eventb_spec; vm_compute; reflexivity|].
  split; [apply no_eventb_spec; vm_compute; reflexivity|].
  split; [vm_compute; reflexivity|]. split; [|split; vm_compute; reflexivity].
  intros [|[|j]] N; [vm_compute; reflexivity|contradiction|]. apply F. lia.
Qed.
Lemma parked_alone_stuck mi mo s i : p_pc s i = TParked -> p_closed s = false -> (forall j, j <> i -> p_pc s j = TIdle) ->
  forall s', quiet_steps mi mo s s' -> s' = s.
Proof.
  intros P C A s' Q. induction Q as [|s1 s2 j Q IH NC St]; [reflexivity|]. subst s1.
  destruct (Nat.eq_dec j i) as [->|N]; [|destruct NC; apply (A j N)].
  inversion St; try congruence.
Qed.
Lemma never_served : ~ forall mi mo s i, preachable mi mo s -> disciplined (p_trace s) -> no_event (p_trace s) is_pool_close ->
  no_event (p_trace s) is_failed_test -> p_pc s i = TParked -> p_idle s <> [] ->
  exists s', quiet_steps mi mo s s' /\ p_pc s' i <> TParked.
Proof.
  intros H. destruct ex_stuck_facts as (R & D & N1 & N2 & P & A & I & C).
  destruct (H 1%Z 1%Z ex_stuck 1%nat R D N1 N2 P) as (s' & Q & NP); [rewrite I; discriminate|].
  apply (parked_alone_stuck 1 1 _ _ P C A) in Q. subst s'. contradiction.
Qed.
Lemma parked_served mi mo s j c k : p_pc s j = TPutL c k -> p_closed s = false -> (exists i, p_pc s i = TParked) ->
  (forall i, p_pc s i = TParked -> exists s', pstep mi mo s j s' /\ p_pc s' i = TTest c true) /\
  forall s', pstep mi mo s j s' -> exists i, p_pc s i = TParked /\ p_pc s' i = TTest c true.
Proof.
  assert (X : forall k' i, p_pc s j = TPutL c k -> p_pc s i = TParked ->
    p_pc (p_to (p_to (set_lock s None) i (TTest c true) []) j k' []) i = TTest c true).
  { intros k' i P Q. cbn. assert (i <> j) by congruence. unfold upd. destruct (Nat.eqb_spec i j); [congruence|]. rewrite Nat.eqb_refl. reflexivity. }
  intros P C [i Q]. split.
  - intros i' Q'. eexists. split; [eapply SHandOver; eassumption|]. apply X; assumption.
  - intros s' St. inversion St; try congruence.
    assert (c0 = c) by congruence. assert (k0 = k) by congruence. subst c0 k0. exists j0. split; [assumption|]. apply X; assumption.
Qed.

(** * A dead idle connection *)
Definition in_loop (c : nat) (s : pst) (i : nat) : Prop :=
  p_closed s = false /\ (forall j, p_pc s j <> TParked) /\
  match p_pc s i with
  | TGet | TLoop => p_idle s = [c]
  | TTest d false | TDead d false | TPut d (KDead false) | TPutL d (KDead false) => d = c /\ p_idle s = []
  | TAgain false => p_idle s = [c]
  | _ => False
  end.
Lemma upd_same {A} (f : nat -> A) i x : upd f i x i = x.
Proof. unfold upd. rewrite Nat.eqb_refl. reflexivity. Qed.
Lemma in_loop_step mi mo c0 s i s' : (1 <= mi)%Z -> in_loop c0 s i -> pstep mi mo s i s' ->
  (forall new, p_trace s' = new ++ p_trace s -> ~ In (i, ETest c0 true) new) -> in_loop c0 s' i.
Proof.
  intros Hm (Cl & NP & V) St NO.
  assert (NP' : forall p, p <> TParked -> forall j, upd (p_pc s) i p j <> TParked).
  { intros p Hp j. unfold upd. destruct (Nat.eqb j i); auto. }
  cases_of St; try rewrite P in V; try contradiction; unfold in_loop; sim; rewrite ?upd_same; rewrite ?E in V; try discriminate.
  - split; [exact Cl|]. split; [apply NP'; discriminate|exact V].
  - injection V as -> ->. split; [exact Cl|]. split; [apply NP'; discriminate|auto].
  - destruct w; [contradiction|]. destruct V as [-> V]. exfalso. apply (NO [(i, EGot c0); (i, ETest c0 true)]); [reflexivity|]. right. left. reflexivity.
  - destruct w; [contradiction|]. split; [exact Cl|]. split; [apply NP'; discriminate|exact V].
  - destruct w; [contradiction|]. split; [exact Cl|]. split; [apply NP'; discriminate|exact V].
  - destruct w; [contradiction|]. split; [exact Cl|]. split; [apply NP'; discriminate|exact V].
  - destruct P as [P|P]; congruence.
  - destruct k as [|[]]; try contradiction. split; [exact Cl|]. split; [apply NP'; discriminate|exact V].
  - congruence.
  - destruct (NP j Q).
  - destruct k as [|[]]; try contradiction. destruct V as [_ V]. rewrite V in M. cbn in M. lia.
  - destruct k as [|[]]; try contradiction. split; [exact Cl|]. split; [apply NP'; discriminate|].
    destruct V as [-> V]. rewrite V. reflexivity.
Qed.

Lemma psteps_trace mi mo i s s' : psteps_of mi mo i s s' -> exists new, p_trace s' = new ++ p_trace s.
Proof.
  induction 1 as [|s1 s2 Q [new IH] St]; [exists []; reflexivity|]. destruct (step_trace _ _ _ _ _ St) as [ev E].
  exists (map (fun e => (i, e)) ev ++ new). rewrite E, IH. unfold ptr. apply app_assoc.
Qed.
Lemma dead_forever mi mo s i c s' new : (1 <= mi)%Z -> p_closed s = false -> (forall j, p_pc s j <> TParked) ->
  p_pc s i = TGet -> p_idle s = [c] -> psteps_of mi mo i s s' -> p_trace s' = new ++ p_trace s ->
  (forall j, ~ In (j, ETest c true) new) ->
  p_pc s' i <> TIdle /\ p_pc s' i <> TDial /\ p_next s' = p_next s.
Proof.
  intros Hm Cl NP P I Q.
  assert (G : forall new, p_trace s' = new ++ p_trace s -> (forall j, ~ In (j, ETest c true) new) -> in_loop c s' i /\ p_next s' = p_next s).
  { clear new. induction Q as [|s1 s2 Q IH St]; intros new T NT.
    - split; [|reflexivity]. repeat split; auto. rewrite P. exact I.
    - destruct (psteps_trace _ _ _ _ _ Q) as [n1 T1].
      assert (X : forall ev, p_trace s2 = ev ++ p_trace s1 -> new = ev ++ n1).
      { intros ev E. rewrite E, T1, app_assoc in T. apply app_inv_tail in T. congruence. }
      assert (NT1 : forall j, ~ In (j, ETest c true) n1).
      { intros j Hj. destruct (step_trace _ _ _ _ _ St) as [ev E]. apply (NT j). rewrite (X _ E). apply in_or_app. auto. }
      destruct (IH n1 T1 NT1) as [L En]. split.
      + apply (in_loop_step mi mo c s1 i s2 Hm L St). intros ev E Hj. apply (NT i). rewrite (X _ E). apply in_or_app. auto.
      + rewrite <- En. destruct L as (_ & _ & L). clear - St L. inversion St; try reflexivity; sim; auto.
        rewrite H in L. contradiction. }
  intros T NT. destruct (G new T NT) as [(_ & _ & L) En]. repeat split; [| |exact En]; intros E; rewrite E in L; contradiction.
Qed.

Definition ex_dead : pst := pafter 2 1 2 (acts_get 0 ++ acts_give 0 0 ++ [(0%nat, AGet)]).
Definition ex_dead' : pst := pafter 2 1 2 (acts_get 0 ++ acts_give 0 0 ++
  [(0%nat, AGet); (0%nat, AGo); (0%nat, AGo); (0%nat, ABad); (0%nat, AGo); (0%nat, AGo); (0%nat, AGo); (0%nat, AGo);
   (0%nat, AGo); (0%nat, ABad)]).
Lemma psteps_snoc mi mo i acts : forall n s s', (forall j, (n <= j)%nat -> p_pc s j = TIdle) ->
  prun n mi mo s (map (fun a => (i, a)) acts) = Some s' -> psteps_of mi mo i s s'.
Proof.
  intros n. assert (G : forall acts s0 s s', (forall j, (n <= j)%nat -> p_pc s j = TIdle) -> psteps_of mi mo i s0 s ->
    prun n mi mo s (map (fun a => (i, a)) acts) = Some s' -> psteps_of mi mo i s0 s').
  { clear acts. induction acts as [|a acts IH]; cbn; intros s0 s s' V Q H; [injection H as <-; exact Q|].
    destruct (pdo n mi mo s i a) as [s1|] eqn:E; [|discriminate].
    apply (IH s0 s1 s'); [apply (pdo_finite n mi mo s i a s1 V E)| |exact H].
    apply (PMore _ _ _ _ s s1 Q), (pdo_sound n mi mo s i a s1 V E). }
  intros s s' V H. apply (G acts s s s' V); [constructor|exact H].
Qed.
Definition has_test_ok (tr : list (nat * pev)) (c : nat) : bool :=
  existsb (fun x => match snd x with ETest d true => Nat.eqb d c | _ => false end) tr.
Lemma has_test_ok_spec tr c : has_test_ok tr c = false -> forall j, ~ In (j, ETest c true) tr.
Proof.
  intros H j I. assert (T : has_test_ok tr c = true).
  { apply existsb_exists. exists (j, ETest c true). split; [exact I|]. cbn. apply Nat.eqb_refl. }
  congruence.
Qed.
Lemma ex_dead_facts : preachable 1 2 ex_dead /\ disciplined (p_trace ex_dead) /\ p_closed ex_dead = false /\ (forall j, p_pc ex_dead j <> TParked) /\
  p_pc ex_dead 0 = TGet /\ p_idle ex_dead = [0%nat] /\ (forall j, ~ In (j, ETest 0 true) (p_trace ex_dead)) /\
  psteps_of 1 2 0 ex_dead ex_dead' /\ (forall j, ~ In (j, ETest 0 true) (p_trace ex_dead')) /\
  (p_num ex_dead' < 2)%Z.
Proof.
  destruct (pafter_reach 2 1 2 (acts_get 0 ++ acts_give 0 0 ++ [(0%nat, AGet)])) as [R F]; [vm_compute; reflexivity|].
  split; [exact R|]. split; [apply disciplinedb_spec; vm_compute; reflexivity|]. split; [vm_compute; reflexivity|]. split.
  { intros [|[|j]]; [vm_compute; discriminate..|]. change (p_pc ex_dead (S (S j)) <> TParked). rewrite F by lia. discriminate. }
  split; [vm_compute; reflexivity|]. split; [vm_compute; reflexivity|].
  split; [apply has_test_ok_spec; vm_compute; reflexivity|].
  split; [|split; [apply has_test_ok_spec; vm_compute; reflexivity|vm_compute; reflexivity]].
  apply (psteps_snoc 1 2 0 [AGo; AGo; ABad; AGo; AGo; AGo; AGo; AGo; ABad] 2 ex_dead ex_dead' F). vm_compute. reflexivity.
Qed.
Lemma dead_not_replaced : ~ forall mi mo s i c, preachable mi mo s -> disciplined (p_trace s) -> p_closed s = false ->
  (1 <= mi)%Z -> p_pc s i = TGet -> p_lock s = None -> p_idle s = [c] -> (p_num s <= mo)%Z ->
  exists s' new, psteps_of mi mo i s s' /\ p_trace s' = new ++ p_trace s /\ (forall j, ~ In (j, ETest c true) new) /\
    (p_pc s' i = TIdle \/ p_pc s' i = TDial).
Proof.
  intros H. destruct ex_dead_facts as (R & D & Cl & NP & P & I & NO & _).
  destruct (H 1%Z 2%Z ex_dead 0%nat 0%nat R D Cl ltac:(lia) P) as (s' & new & Q & T & NT & Z); [vm_compute; reflexivity|exact I|vm_compute; discriminate|].
  destruct (dead_forever 1 2 ex_dead 0 0 s' new ltac:(lia) Cl NP P I Q T NT) as (A & B & _). destruct Z; contradiction.
Qed.

(** * Leftovers *)
Definition ex_left : pst := pafter 2 1 1 (acts_get 0 ++ [(0%nat, AUse 0 [x41; x42])] ++ acts_give 0 0 ++ acts_get 1).
Lemma ex_left_facts : preachable 1 1 ex_left /\ disciplined (p_trace ex_left) /\ no_event (p_trace ex_left) is_failed_test /\
  (exists tr, p_trace ex_left = (1%nat, EGot 0) :: tr) /\ cl_buf ex_left 0 = [x41; x42].
Proof.
  split; [apply pafter_reach; vm_compute; reflexivity|].
  split; [apply disciplinedb_spec; vm_compute; reflexivity|].
  split; [apply no_eventb_spec; vm_compute; reflexivity|].
  split; [eexists; vm_compute; reflexivity|vm_compute; reflexivity].
Qed.
Lemma prun_app n mi mo a b : forall s, prun n mi mo s (a ++ b) = match prun n mi mo s a with Some s' => prun n mi mo s' b | None => None end.
Proof. induction a as [|(i & x) a IH]; intros s; [reflexivity|]. cbn [app prun]. destruct (pdo n mi mo s i x); [apply IH|reflexivity]. Qed.
Lemma pafter_last n mi mo l i a : pworks n mi mo (l ++ [(i, a)]) = true ->
  preachable mi mo (pafter n mi mo l) /\ pstep mi mo (pafter n mi mo l) i (pafter n mi mo (l ++ [(i, a)])) /\
  (forall j, (n <= j)%nat -> p_pc (pafter n mi mo l) j = TIdle) /\
  pdo n mi mo (pafter n mi mo l) i a = Some (pafter n mi mo (l ++ [(i, a)])).
Proof.
  unfold pworks, pafter. rewrite prun_app. destruct (prun n mi mo p0 l) as [s|] eqn:E; [|discriminate]. cbn [prun].
  destruct (prun_sound n mi mo l p0 s (PInit _ _) (fun _ _ => eq_refl) E) as [R F].
  destruct (pdo n mi mo s i a) as [s'|] eqn:D; [|discriminate]. intros _.
  split; [exact R|]. split; [apply (pdo_sound n mi mo s i a s' F D)|]. split; [exact F|reflexivity].
Qed.
Lemma leftovers : ~ forall mi mo s i s' c, preachable mi mo s -> pstep mi mo s i s' -> disciplined (p_trace s') ->
  hands_out s i s' c -> cl_buf s' c = [].
Proof.
  intros H. destruct ex_left_facts as (_ & D & _ & _ & B).
  set (l := acts_get 0 ++ [(0%nat, AUse 0 [x41; x42])] ++ acts_give 0 0 ++ [(1, AGet); (1, AGo); (1, AGo)]%nat).
  assert (El : ex_left = pafter 2 1 1 (l ++ [(1%nat, AGo)])) by reflexivity.
  destruct (pafter_last 2 1 1 l 1 AGo) as (R & S & _); [vm_compute; reflexivity|].
  rewrite <- El in S. specialize (H 1%Z 1%Z _ _ _ 0%nat R S D). rewrite B in H.
  discriminate H. exists [(1%nat, ETest 0 true)]. vm_compute. reflexivity.
Qed.
(** What a borrower's buffer holds is what the pool's record says, and it is the
    next borrower's first reply. *)
Lemma leftover_read C (L : CryptoLaws C) E o ses p n st s c : c_works E -> c_buf st = cl_buf s c -> cl_buf s c <> [] ->
  let '(w, st1) := crun C E (client_write C o ses p) st in
  fst (crun C E (client_read C o ses n) st1) = Some (RdOk (takeN n (cl_buf s c)) (lenN (cl_buf s c) <=? n)).
Proof. intros W Hb Hn. rewrite <- Hb in *. apply (leftover_after_write C L E o ses p n st W Hn). Qed.

(** * Closing *)
Definition ex_put_closed : pst := pafter 2 1 1 (acts_get 0 ++ acts_close 1 ++ acts_give 0 0).
Definition ex_close_twice : pst := pafter 1 1 1 (acts_close 0 ++ acts_close 0).
Definition ex_wait_closed : pst :=
  pafter 3 1 1 (acts_get 0 ++ [(1%nat, AGet); (1%nat, AGo); (1%nat, AGo); (1%nat, AGo)] ++ acts_close 2 ++ [(1%nat, AGo)]).
Lemma ex_panics : Forall (fun s => preachable 1 1 s /\ disciplined (p_trace s) /\ exists i, In (i, EPanic) (p_trace s))
  [ex_put_closed; ex_close_twice; ex_wait_closed].
Proof.
  repeat apply Forall_cons; [..|apply Forall_nil];
    (split; [apply pafter_reach; vm_compute; reflexivity|]; split; [apply disciplinedb_spec; vm_compute; reflexivity|]).
  - exists 0%nat. vm_compute. auto.
  - exists 0%nat. vm_compute. auto.
  - exists 1%nat. vm_compute. auto.
Qed.
Lemma panics : ~ forall mi mo s, preachable mi mo s -> disciplined (p_trace s) -> no_event (p_trace s) is_panic.
Proof.
  intros H. pose proof ex_panics as F. inversion F as [|s l (R & D & i & I) _]; subst.
  specialize (H 1%Z 1%Z _ R D i EPanic I). discriminate.
Qed.
Lemma no_close_no_panic mi mo s : preachable mi mo s -> (forall i, ~ In (i, EPoolClosed) (p_trace s)) -> no_event (p_trace s) is_panic.
Proof.
  induction 1 as [|s s' i R IH St]; intros NC; [intros i e []|].
  destruct (step_trace _ _ _ _ _ St) as [ev Et].
  assert (NC0 : forall j, ~ In (j, EPoolClosed) (p_trace s)).
  { intros j Hj. apply (NC j). rewrite Et. apply in_ptr. auto. }
  specialize (IH NC0). clear Et ev.
  assert (Cl : p_closed s = false).
  { destruct (p_closed s) eqn:Cl; [|reflexivity]. apply (ci_ev s (cinv_reachable _ _ _ R)) in Cl as [j Hj]. destruct (NC0 j Hj). }
  assert (G : forall ev', existsb is_panic ev' = false -> no_event (ptr i ev' (p_trace s)) is_panic).
  { intros ev' H j e I. apply in_ptr in I as [[_ I]|I]; [|apply (IH j e I)].
    destruct (is_panic e) eqn:X; [|reflexivity]. assert (existsb is_panic ev' = true) by (apply existsb_exists; eauto). congruence. }
  assert (SE : forall l, existsb is_panic (shut_events l) = false).
  { intros l. apply not_true_is_false. intros H. apply existsb_exists in H as (e & I & H). apply in_shut_events in I as (? & -> & _). discriminate. }
  cases_of St; try congruence; sim; try exact IH; try (apply (G [_]); reflexivity); try (apply (G [_; _]); reflexivity).
  - destruct (dialled_fields s) as (_ & _ & _ & _ & _ & _ & -> & _). apply (G [_; _]); reflexivity.
  - apply (G (EPoolErr :: shut_events (a ++ [c]))). cbn. apply SE.
  - apply (G (EPoolClosed :: shut_events (p_idle s))). cbn. apply SE.
Qed.

(** * Closing a client twice *)
Definition ex_twice : pst := pafter 3 2 2 (acts_get 0 ++ acts_give 0 0 ++ acts_give 0 0 ++ acts_get 1 ++ acts_get 2).
Lemma ex_twice_facts : preachable 2 2 ex_twice /\ no_event (p_trace ex_twice) is_pool_close /\
  no_event (p_trace ex_twice) is_failed_test /\ no_event (p_trace ex_twice) is_panic /\
  (exists pre, p_trace ex_twice = [(2%nat, EGot 0); (2%nat, ETest 0 true)] ++ (1%nat, EGot 0) :: pre).
Proof.
  split; [apply pafter_reach; vm_compute; reflexivity|].
  do 3 (split; [apply no_eventb_spec; vm_compute; reflexivity|]). eexists. vm_compute. reflexivity.
Qed.
Lemma not_exclusive : ~ forall mi mo s post i c mid j pre, preachable mi mo s ->
  no_event (p_trace s) is_pool_close -> no_event (p_trace s) is_failed_test -> no_event (p_trace s) is_panic ->
  p_trace s = post ++ (i, EGot c) :: mid ++ (j, EGot c) :: pre -> exists k, In (k, EGive c) mid.
Proof.
  intros H. destruct ex_twice_facts as (R & N1 & N2 & N3 & pre & E).
  destruct (H 2%Z 2%Z ex_twice [] 2%nat 0%nat [(2%nat, ETest 0 true)] 1%nat pre R N1 N2 N3 E) as (k & [I|[]]). discriminate.
Qed.

Definition ex_closed : pst := pafter 2 1 2 (acts_get 0 ++ acts_give 0 0 ++ acts_close 1).
Lemma ex_closed_facts : preachable 1 2 ex_closed /\ disciplined (p_trace ex_closed) /\ no_event (p_trace ex_closed) is_panic /\
  (exists i, In (i, EPoolClosed) (p_trace ex_closed)) /\ (forall c, with_user (p_trace ex_closed) c = false) /\
  (forall i, in_hand (p_pc ex_closed i) = None) /\ In (1%nat, EShut 0) (p_trace ex_closed).
Proof.
  destruct (pafter_reach 2 1 2 (acts_get 0 ++ acts_give 0 0 ++ acts_close 1)) as [R F]; [vm_compute; reflexivity|].
  split; [exact R|]. split; [apply disciplinedb_spec; vm_compute; reflexivity|].
  split; [apply no_eventb_spec; vm_compute; reflexivity|]. split; [exists 1%nat; vm_compute; auto|].
  split; [intros [|c]; vm_compute; reflexivity|]. split; [|vm_compute; auto].
  intros [|[|i]]; [vm_compute; reflexivity..|]. change (in_hand (p_pc ex_closed (S (S i))) = None). rewrite F by lia. reflexivity.
Qed.

Definition ex_before_hand : pst :=
  pafter 2 1 1 (acts_get 0 ++ [(1%nat, AGet); (1%nat, AGo); (1%nat, AGo); (1%nat, AGo); (0%nat, AGive 0); (0%nat, AGo)]).
Definition ex_holding : pst := pafter 1 1 1 [(0%nat, AGet); (0%nat, AGo)].

(** A dead client, a Close, a new dial, and a Get that finds the pool full. *)
Definition ex_full : pst :=
  pafter 3 1 1 (acts_get 0 ++ acts_give 0 0 ++ acts_get_dead 0 ++ acts_close 1 ++ acts_get 1 ++ [(2%nat, AGet); (2%nat, AGo)]).
Lemma ex_full_facts : exists s', preachable 1 1 ex_full /\ no_event (p_trace ex_full) is_pool_error /\
  pdo 3 1 1 ex_full 2 AGo = Some s' /\ p_pc ex_full 2 = TLoop /\ p_pc s' 2 = TUnlocked /\
  In (1%nat, EPoolClosed) (p_trace ex_full) /\ In (0%nat, ETest 0 false) (p_trace ex_full) /\ p_num ex_full = 1%Z.
Proof.
  eexists. split; [apply pafter_reach; vm_compute; reflexivity|].
  split; [apply no_eventb_spec; vm_compute; reflexivity|]. split; [reflexivity|].
  split; [vm_compute; reflexivity|]. split; [vm_compute; reflexivity|].
  split; [vm_compute; tauto|]. split; [vm_compute; tauto|vm_compute; reflexivity].
Qed.
