(** Properties of the client pool under any interleaving of callers (C58-C63,
    C80-C83, C148). *)
From Verif Require Import Bytes Parser Crypto Kdf Client ClientSeq SpecClient ClientConc Pool SpecPool PoolProofs PoolInv PoolWait PoolExec PoolThms.

(** C58. Before the pool is closed, all clients it handed out have the same session. *)
Theorem C58_one_session mi mo s i j c d :
  preachable mi mo s -> (forall k, ~ In (k, EPoolClosed) (p_trace s)) ->
  In (i, EGot c) (p_trace s) -> In (j, EGot d) (p_trace s) -> cl_session s c = cl_session s d.
Proof. exact (one_session mi mo s i j c d). Qed.
Print Assumptions C58_one_session.
Example C58_example : preachable 1 2 ex_two /\ (forall k, ~ In (k, EPoolClosed) (p_trace ex_two)) /\
  In (0%nat, EGot 0) (p_trace ex_two) /\ In (1%nat, EGot 1) (p_trace ex_two).
Proof.
  destruct ex_two_facts as (R & _ & _ & N & _ & _ & _ & _ & I & J). split; [exact R|]. split; [|auto].
  intros k H. discriminate (N k _ H).
Qed.

(** C59 is false: a connection found dead is given back and counted down, and may
    be handed out again without being counted. *)
Theorem C59_refuted : ~ forall mi mo s,
  preachable mi mo s -> disciplined (p_trace s) -> no_event (p_trace s) is_pool_close -> (open_count s <= Z.max 0 mo)%Z.
Proof. exact over_max. Qed.
Print Assumptions C59_refuted.
(** As long as no connection was found dead and the pool was not closed, the pool's
    number is that of the open connections, and within the maximum. *)
Theorem C59_partial mi mo s :
  preachable mi mo s -> disciplined (p_trace s) -> no_event (p_trace s) is_failed_test -> no_event (p_trace s) is_pool_close ->
  p_num s = open_count s /\ (open_count s <= Z.max 0 mo)%Z.
Proof. exact (open_bounded mi mo s). Qed.
Print Assumptions C59_partial.
Example C59_example : preachable 1 2 ex_two /\ disciplined (p_trace ex_two) /\ no_event (p_trace ex_two) is_failed_test /\
  no_event (p_trace ex_two) is_pool_close /\ open_count ex_two = 2%Z.
Proof. destruct ex_two_facts as (R & D & N & M & _ & O & _). auto. Qed.
(** Both exclusions are needed. *)
Example C59_close_loses_count : preachable 1 1 ex_over_close /\ disciplined (p_trace ex_over_close) /\
  no_event (p_trace ex_over_close) is_failed_test /\ open_count ex_over_close = 2%Z.
Proof. exact ex_over_close_facts. Qed.

(** C60 is false: a Get may wait for ever although a client is idle. *)
Theorem C60_refuted : ~ forall mi mo s i,
  preachable mi mo s -> disciplined (p_trace s) -> no_event (p_trace s) is_pool_close -> no_event (p_trace s) is_failed_test ->
  p_pc s i = TParked -> p_idle s <> [] -> exists s', quiet_steps mi mo s s' /\ p_pc s' i <> TParked.
Proof. exact never_served. Qed.
Print Assumptions C60_refuted.
(** A client given back while a Get is blocked in its receive goes to such a Get: it
    can go to each of them, and can go nowhere else. *)
Theorem C60_partial mi mo s j c k :
  p_pc s j = TPutL c k -> p_closed s = false -> (exists i, p_pc s i = TParked) ->
  (forall i, p_pc s i = TParked -> exists s', pstep mi mo s j s' /\ p_pc s' i = TTest c true) /\
  forall s', pstep mi mo s j s' -> exists i, p_pc s i = TParked /\ p_pc s' i = TTest c true.
Proof. exact (parked_served mi mo s j c k). Qed.
Print Assumptions C60_partial.
Example C60_example : p_pc ex_before_hand 0 = TPutL 0 KUser /\ p_closed ex_before_hand = false /\ p_pc ex_before_hand 1 = TParked /\
  exists s', pdo 2 1 1 ex_before_hand 0 (AHand 1) = Some s' /\ p_pc s' 1 = TTest 0 true.
Proof. repeat split. eexists. split; reflexivity. Qed.

(** C61 is false: a pool that may keep idle connections puts the dead one back,
    and Get takes it again, for as long as it is dead. *)
Theorem C61_refuted : ~ forall mi mo s i c,
  preachable mi mo s -> disciplined (p_trace s) -> p_closed s = false ->
  (1 <= mi)%Z -> p_pc s i = TGet -> p_lock s = None -> p_idle s = [c] -> (p_num s <= mo)%Z ->
  exists s' new, psteps_of mi mo i s s' /\ p_trace s' = new ++ p_trace s /\ (forall j, ~ In (j, ETest c true) new) /\
    (p_pc s' i = TIdle \/ p_pc s' i = TDial).
Proof. exact dead_not_replaced. Qed.
Print Assumptions C61_refuted.
Theorem C61_dead_forever mi mo s i c s' new :
  (1 <= mi)%Z -> p_closed s = false -> (forall j, p_pc s j <> TParked) -> p_pc s i = TGet -> p_idle s = [c] ->
  psteps_of mi mo i s s' -> p_trace s' = new ++ p_trace s -> (forall j, ~ In (j, ETest c true) new) ->
  p_pc s' i <> TIdle /\ p_pc s' i <> TDial /\ p_next s' = p_next s.
Proof. exact (dead_forever mi mo s i c s' new). Qed.
Print Assumptions C61_dead_forever.
Example C61_example : preachable 1 2 ex_dead /\ disciplined (p_trace ex_dead) /\ p_closed ex_dead = false /\
  (forall j, p_pc ex_dead j <> TParked) /\ p_pc ex_dead 0 = TGet /\ p_idle ex_dead = [0%nat] /\
  (forall j, ~ In (j, ETest 0 true) (p_trace ex_dead)) /\
  psteps_of 1 2 0 ex_dead ex_dead' /\ (forall j, ~ In (j, ETest 0 true) (p_trace ex_dead')) /\ (p_num ex_dead' < 2)%Z.
Proof. exact ex_dead_facts. Qed.

(** C62 is false: a client is handed out with what its last borrower left in its
    buffer, and the new borrower's first Read, after a Write, returns that. *)
Theorem C62_refuted : ~ forall mi mo s i s' c, preachable mi mo s -> pstep mi mo s i s' ->
  disciplined (p_trace s') -> hands_out s i s' c -> cl_buf s' c = [].
Proof. exact leftovers. Qed.
Print Assumptions C62_refuted.
Theorem C62_leftover_read C (L : CryptoLaws C) E o ses p n st s c :
  c_works E -> c_buf st = cl_buf s c -> cl_buf s c <> [] ->
  let '(w, st1) := crun C E (client_write C o ses p) st in
  fst (crun C E (client_read C o ses n) st1) = Some (RdOk (takeN n (cl_buf s c)) (lenN (cl_buf s c) <=? n)).
Proof. exact (leftover_read C L E o ses p n st s c). Qed.
Print Assumptions C62_leftover_read.
Example C62_example : preachable 1 1 ex_left /\ disciplined (p_trace ex_left) /\ no_event (p_trace ex_left) is_failed_test /\
  (exists tr, p_trace ex_left = (1%nat, EGot 0) :: tr) /\ cl_buf ex_left 0 = [x41; x42].
Proof. exact ex_left_facts. Qed.

(** C63 is false: giving a client back after the pool was closed panics, closing
    the pool twice panics, and a Get waiting while it is closed panics. *)
Theorem C63_refuted : ~ forall mi mo s, preachable mi mo s -> disciplined (p_trace s) -> no_event (p_trace s) is_panic.
Proof. exact panics. Qed.
Print Assumptions C63_refuted.
Example C63_examples : Forall (fun s => preachable 1 1 s /\ disciplined (p_trace s) /\ exists i, In (i, EPanic) (p_trace s))
  [ex_put_closed; ex_close_twice; ex_wait_closed].
Proof. exact ex_panics. Qed.
(** Nothing panics before the pool is closed. *)
Theorem C63_partial mi mo s :
  preachable mi mo s -> (forall i, ~ In (i, EPoolClosed) (p_trace s)) -> no_event (p_trace s) is_panic.
Proof. exact (no_close_no_panic mi mo s). Qed.
Print Assumptions C63_partial.
Example C63_example : preachable 1 2 ex_two /\ (forall k, ~ In (k, EPoolClosed) (p_trace ex_two)).
Proof. destruct C58_example as (R & N & _). auto. Qed.

(** C80. If every borrower closes each client it got at most once, a client is not
    handed out again before it was given back. *)
Theorem C80_exclusive mi mo s post i c mid j pre :
  preachable mi mo s -> disciplined (p_trace s) ->
  p_trace s = post ++ (i, EGot c) :: mid ++ (j, EGot c) :: pre -> exists k, In (k, EGive c) mid.
Proof. exact (fun R D => exclusive mi mo s R D post i c mid j pre). Qed.
Print Assumptions C80_exclusive.
Example C80_example : preachable 1 1 ex_left /\ disciplined (p_trace ex_left) /\ exists mid pre,
  p_trace ex_left = [] ++ (1%nat, EGot 0) :: mid ++ (0%nat, EGot 0) :: pre.
Proof.
  destruct ex_left_facts as (R & D & _). split; [exact R|]. split; [exact D|].
  exists [(1%nat, ETest 0 true); (0%nat, EGive 0)]. eexists. vm_compute. reflexivity.
Qed.

(** C81 is false: closing a borrowed client twice makes the pool hand it out to two
    borrowers. *)
Theorem C81_refuted : ~ forall mi mo s post i c mid j pre,
  preachable mi mo s ->
  no_event (p_trace s) is_pool_close -> no_event (p_trace s) is_failed_test -> no_event (p_trace s) is_panic ->
  p_trace s = post ++ (i, EGot c) :: mid ++ (j, EGot c) :: pre -> exists k, In (k, EGive c) mid.
Proof. exact not_exclusive. Qed.
Print Assumptions C81_refuted.
(** Borrowers 1 and 2 both have client 0, which borrower 0 closed twice. *)
Example C81_example : preachable 2 2 ex_twice /\
  filter (fun x => match snd x with EGot _ | EGive _ => true | _ => false end) (p_trace ex_twice) =
  [(2, EGot 0); (1, EGot 0); (0, EGive 0); (0, EGive 0); (0, EGot 0)]%nat.
Proof. split; [exact (proj1 ex_twice_facts)|vm_compute; reflexivity]. Qed.

(** C82. As long as nothing panicked, every open connection is with a borrower,
    idle, or in the hand of a goroutine inside the pool. *)
Theorem C82_no_leak mi mo s c :
  preachable mi mo s -> disciplined (p_trace s) -> no_event (p_trace s) is_panic -> cl_open s c = true ->
  with_user (p_trace s) c = true \/ In c (p_idle s) \/ exists i, in_hand (p_pc s i) = Some c.
Proof. exact (fun R D N => no_leak mi mo s R D N c). Qed.
Print Assumptions C82_no_leak.
Example C82_example : preachable 1 2 ex_two /\ disciplined (p_trace ex_two) /\ no_event (p_trace ex_two) is_panic /\
  cl_open ex_two 0 = true /\ cl_open ex_two 1 = true.
Proof. destruct ex_two_facts as (R & D & _ & _ & N & _). repeat split; auto. Qed.
(** Once the pool was closed and everything was given back before, none is open. *)
Theorem C82_close_closes_all mi mo s c :
  preachable mi mo s -> disciplined (p_trace s) -> no_event (p_trace s) is_panic -> (exists i, In (i, EPoolClosed) (p_trace s)) ->
  (forall d, with_user (p_trace s) d = false) -> (forall i, in_hand (p_pc s i) = None) -> cl_open s c = false.
Proof. exact (fun R D N H U I => close_closes_all mi mo s R D N H U I c). Qed.
Print Assumptions C82_close_closes_all.
Example C82_close_example : preachable 1 2 ex_closed /\ disciplined (p_trace ex_closed) /\ no_event (p_trace ex_closed) is_panic /\
  (exists i, In (i, EPoolClosed) (p_trace ex_closed)) /\ (forall c, with_user (p_trace ex_closed) c = false) /\
  (forall i, in_hand (p_pc ex_closed i) = None) /\ In (1%nat, EShut 0) (p_trace ex_closed).
Proof. exact ex_closed_facts. Qed.

(** C83. Whoever holds the pool's mutex has a step, and has released it after two
    steps at the latest. *)
Theorem C83_mutex_released mi mo s i :
  preachable mi mo s -> p_lock s = Some i ->
  (exists s1, pstep mi mo s i s1) /\
  (forall s1 s2, pstep mi mo s i s1 -> pstep mi mo s1 i s2 -> p_lock s1 = None \/ p_lock s2 = None).
Proof. exact (fun R L => conj (holder_steps mi mo s i R L) (fun s1 s2 => holder_releases mi mo s i s1 s2 R L)). Qed.
Print Assumptions C83_mutex_released.
Example C83_example : preachable 1 1 ex_holding /\ p_lock ex_holding = Some 0%nat.
Proof. split; [apply pafter_reach|]; reflexivity. Qed.

(** C148. Unless a Close of the pool failed, a Get that begins to wait found no idle
    client and at least the maximum of connections open. *)
Theorem C148_waits_when_full mi mo s i s' :
  preachable mi mo s -> no_event (p_trace s) is_pool_error -> pstep mi mo s i s' ->
  p_pc s i <> TUnlocked -> p_pc s' i = TUnlocked -> p_idle s = [] /\ (mo <= open_count s)%Z.
Proof. exact (waits_when_full mi mo s i s'). Qed.
Print Assumptions C148_waits_when_full.
(** After a failed test, a Close of the pool and a new dial. *)
Example C148_example : exists s', preachable 1 1 ex_full /\ no_event (p_trace ex_full) is_pool_error /\
  pdo 3 1 1 ex_full 2 AGo = Some s' /\ p_pc ex_full 2 = TLoop /\ p_pc s' 2 = TUnlocked /\
  In (1%nat, EPoolClosed) (p_trace ex_full) /\ In (0%nat, ETest 0 false) (p_trace ex_full) /\ p_num ex_full = 1%Z.
Proof. exact ex_full_facts. Qed.
