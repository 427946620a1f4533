(** What holds of C62, C92, C108 and C121, which are refuted in [P_Pool], [P_Life],
    [P_Draft] and [P_Resources]. *)
From Verif Require Import Bytes ClientConc Pool SpecPool Life SpecLife SecretMgr SpecSecretMgr Resources SpecResources
  PoolTidy LifePort SecretCount PoolThms LifeThms.

(** C62: a client is handed out with an empty buffer if borrowers use clients only
    while they have them and read all of a reply before they give the client back. *)
Theorem C62_partial : forall mi mo s i s' c, tidy mi mo s -> pstep mi mo s i s' -> disciplined (p_trace s') ->
  hands_out s i s' c -> cl_buf s' c = [].
Proof. exact tidy_clean. Qed.
Print Assumptions C62_partial.
Example C62_partial_example : tidy 1 1 ex_gentle /\
  exists s', pstep 1 1 ex_gentle 1 s' /\ disciplined (p_trace s') /\ hands_out ex_gentle 1 s' 0.
Proof. exact ex_gentle_facts. Qed.

(** C92: once the server is told to quit, the goroutine that closes the listener when
    it ends takes at most four more steps, can always take the next, and does not
    come back to Accept: one more connection, or an error of Accept, releases the
    port. (Or the process has crashed, C88.) *)
Theorem C92_port_released_partial : forall s a sched s', lreach s -> l_quit s = true -> listener (l_pc s a) = true ->
  lrun s sched = Some s' ->
  l_crashed s' = true \/
  (own_steps a sched <= 4)%nat /\ (l_pc s' a = AEnd \/ exists c, ldo s' a c <> None) /\
  ((0 < own_steps a sched)%nat -> l_pc s' a <> AAccept).
Proof. exact port_released. Qed.
Print Assumptions C92_port_released_partial.
Example C92_partial_example : let s := lafter ex_closed in
  l_quit s = true /\ listener (l_pc s 0%nat) = true /\ l_pc s 0%nat = AAccept /\
  exists s', lrun s [(0, ChOk); (0, ChOk); (0, ChNew 7); (0, ChOk)]%nat = Some s' /\ l_pc s' 0%nat = AEnd.
Proof. vm_compute. repeat split. eexists. split; reflexivity. Qed.

(** C108: after a collection the server keeps at most as many sessions as there were
    Stores and Loads since one TTL before the collection. *)
Theorem C108_sessions_bounded_partial : forall ttl a g b, (0 < ttl)%Z -> Forall (fun o => at_least g o) b ->
  exists l, (length l <= length (filter (used_since (g - ttl)) (a ++ MGc g :: b)))%nat /\
  forall k, mgr_exec ttl (a ++ MGc g :: b) k <> None -> In k l.
Proof. exact sessions_bounded. Qed.
Print Assumptions C108_sessions_bounded_partial.
Example C108_partial_example :
  let a := [MStore [x01] 1 0; MStore [x02] 2 0; MStore [x03] 3 0; MLoad [x02] 10] in
  let b := [MStore [x04] 4 21] in
  Forall (fun o => at_least 20 o) b /\ length (filter (used_since (20 - 15)) (a ++ MGc 20 :: b)) = 2%nat /\
  mgr_exec 15 (a ++ MGc 20 :: b) [x02] <> None /\ mgr_exec 15 (a ++ MGc 20 :: b) [x04] <> None.
Proof. split; [repeat constructor; discriminate|]. vm_compute. repeat split; discriminate. Qed.

(** C121: of two servers with managers of their own, as they get by default, closing
    one leaves the collector of the other running. *)
Theorem C121_own_manager_partial : forall s m1 s1 m2 s2, gnum s -> new_server None s = GOk m1 s1 -> new_server None s1 = GOk m2 s2 ->
  exists g1 g2, m1 = MMemory (Some g1) /\ m2 = MMemory (Some g2) /\
  In g1 (g_running s2) /\ In g2 (g_running s2) /\
  In g2 (g_running (close_server m1 s2)) /\ ~ In g1 (g_running (close_server m1 s2)) /\
  In g1 (g_running (close_server m2 s2)) /\ ~ In g2 (g_running (close_server m2 s2)).
Proof. exact own_managers. Qed.
Print Assumptions C121_own_manager_partial.
Example C121_partial_example : let s := {| g_next := 3; g_running := [2; 1]%nat |} in gnum s /\
  new_server None s = GOk (MMemory (Some 3%nat)) {| g_next := 4; g_running := [3; 2; 1]%nat |}.
Proof. split; [intros k [<-|[<-|[]]]; cbn; lia|reflexivity]. Qed.
