(** Properties C23-C26: the in-memory secret manager. *)
From Verif Require Import Bytes SecretMgr SecretMgrProofs.

(** What Load returns is the latest session stored under that id. *)
Theorem C23_load_is_latest_store : forall ttl h k p now,
  fst (mgr_load (mgr_exec ttl h) k now) = Some p ->
  exists h1 t h2, h = h1 ++ MStore k p t :: h2 /\ Forall (fun o => ~ stores k o) h2.
Proof. exact load_latest. Qed.
Print Assumptions C23_load_is_latest_store.
(** It is returned unless a collection found it unused for longer than the TTL. *)
Theorem C23_stored_is_loaded : forall ttl k p t0 h1 h2 now,
  Forall (fun o => ~ stores k o) h2 ->
  (forall a g b, h2 = a ++ MGc g :: b -> (0 < ttl)%Z -> (g - last_use k t0 a <= ttl)%Z) ->
  fst (mgr_load (mgr_exec ttl (h1 ++ MStore k p t0 :: h2)) k now) = Some p.
Proof. exact kept. Qed.
Print Assumptions C23_stored_is_loaded.
Theorem C23_other_ids_unaffected : forall ttl h o k now,
  touches k o = false -> ~ is_gc o ->
  fst (mgr_load (mgr_exec ttl (h ++ [o])) k now) = fst (mgr_load (mgr_exec ttl h) k now).
Proof. exact others. Qed.
Print Assumptions C23_other_ids_unaffected.
Theorem C23_never_stored : forall ttl h k now,
  Forall (fun o => ~ stores k o) h -> fst (mgr_load (mgr_exec ttl h) k now) = None.
Proof. exact never_stored. Qed.
Print Assumptions C23_never_stored.
(** Even when operations interleave, ids never mix. *)
Theorem C23_interleaved_ids_never_mix : forall ttl tr t k p,
  ms_pc (mrun ttl tr) t = MpLoaded k (Some p) -> exists t', In (MeCall t' (MpStore k p)) tr.
Proof. exact load_any_interleaving. Qed.
Print Assumptions C23_interleaved_ids_never_mix.
Example C23_example :
  fst (mgr_load (mgr_exec 15 [MStore [x01] 7 0; MStore [x02] 8 3; MLoad [x01] 10; MGc 20; MStore [x01] 9 21]) [x01] 30) = Some 9%nat.
Proof. vm_compute. reflexivity. Qed.

Theorem C24_recently_used_survives : forall ttl k p t0 h1 h2 now,
  Forall (fun o => ~ stores k o) h2 ->
  (forall a g b, h2 = a ++ MGc g :: b -> (0 < ttl)%Z -> (g - last_use k t0 a <= ttl)%Z) ->
  fst (mgr_load (mgr_exec ttl (h1 ++ MStore k p t0 :: h2)) k now) = Some p.
Proof. exact kept. Qed.
Print Assumptions C24_recently_used_survives.
Theorem C24_idle_is_collected : forall ttl k p t0 h1 a g b now,
  (0 < ttl)%Z ->
  Forall (fun o => ~ stores k o) a -> Forall (fun o => ~ stores k o) b ->
  (ttl < g - last_use k t0 a)%Z ->
  fst (mgr_load (mgr_exec ttl (h1 ++ MStore k p t0 :: a ++ MGc g :: b)) k now) = None.
Proof. exact collected. Qed.
Print Assumptions C24_idle_is_collected.
Theorem C24_no_ttl_no_collection : forall ttl k p t0 h1 h2 now,
  (ttl <= 0)%Z -> Forall (fun o => ~ stores k o) h2 ->
  fst (mgr_load (mgr_exec ttl (h1 ++ MStore k p t0 :: h2)) k now) = Some p.
Proof. exact no_ttl. Qed.
Print Assumptions C24_no_ttl_no_collection.
Example C24_example :
  last_use [x01] 0 [MLoad [x01] 10; MLoad [x02] 99; MGc 12] = 10%Z /\
  fst (mgr_load (mgr_exec 15 [MStore [x01] 7 0; MLoad [x01] 10; MGc 25]) [x01] 30) = Some 7%nat /\
  fst (mgr_load (mgr_exec 15 [MStore [x01] 7 0; MLoad [x01] 10; MGc 26]) [x01] 30) = None.
Proof. vm_compute. auto. Qed.

(** The collector decides on a stale reading and then deletes: a Load that
    returned the session in between does not save it, although no time passed. *)
Theorem C25_load_refreshes_refuted : exists ttl tr t k p tr' t',
  (0 < ttl)%Z /\
  ms_pc (mrun ttl tr) t = MpLoaded k (Some p) /\
  (forall d, ~ In (MeTick d) tr') /\ (forall u q, ~ In (MeCall u (MpStore k q)) tr') /\
  In (MeCall t' (MpLoad k)) tr' /\
  ms_pc (mrun ttl (tr ++ tr')) t' = MpLoaded k None.
Proof. exact gc_race. Qed.
Print Assumptions C25_load_refreshes_refuted.

(** A Load writes back the item it read, undoing a Store that happened since; no
    other Store is in progress. *)
Theorem C26_store_survives_load_refuted : exists ttl tr t k p tr' t' p',
  ms_pc (mrun ttl tr) t = MpStored k p /\
  (forall u q now, ms_pc (mrun ttl tr) u <> MpStore k q /\ ms_pc (mrun ttl tr) u <> MpStore2 k q now) /\
  (forall u q, ~ In (MeCall u (MpStore k q)) tr') /\ In (MeCall t' (MpLoad k)) tr' /\
  (forall e, In e tr' -> e <> MeStep t) /\
  ms_pc (mrun ttl (tr ++ tr')) t' = MpLoaded k (Some p') /\ p' <> p.
Proof. exact load_store_race. Qed.
Print Assumptions C26_store_survives_load_refuted.
