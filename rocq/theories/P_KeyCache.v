(** Properties C55 and C79: the cache of public keys. *)
From Verif Require Import Bytes Crypto ClientConc KeyCache SpecKeyCache KeyCacheProofs KeyCacheExamples.

(** A key returned from the cache was given by the underlying fetcher for that
    host, and stored at most the TTL ago. *)
Theorem C55_cached_is_fresh : forall ttl s post pre i t h pk a, freachable ttl s ->
  f_trace s = post ++ (i, t, ECached h pk a) :: pre ->
  ((0 < ttl)%Z -> (Z.of_N t - Z.of_N a <= ttl)%Z) /\ a <= t /\
  exists j t', In (j, t', EAsk h (Some pk)) pre /\ t' <= a.
Proof. exact cache_fresh. Qed.
Print Assumptions C55_cached_is_fresh.
(** Every call either is answered from the cache without asking, or asks once and
    returns what it got; an error is returned, never kept. *)
Theorem C55_calls : forall ttl s i, freachable ttl s -> calls_so_far (events_of i (f_trace s)).
Proof. exact cache_calls. Qed.
Print Assumptions C55_calls.
(** Without expiry, a key that is cached while no call for the host is in progress
    stays, is what all later calls return, and the fetcher is not asked again. *)
Theorem C55_no_expiry : forall ttl s s' h it, (ttl <= 0)%Z -> freachable ttl s -> f_map s h = Some it ->
  (forall i, ~ busy_with (f_pc s i) h) -> fsteps ttl s s' ->
  f_map s' h = Some it /\ exists new, f_trace s' = new ++ f_trace s /\
    forall i t e, In (i, t, e) new ->
      (forall r, e <> EAsk h r) /\ (forall pk a, e = ECached h pk a -> pk = ce_key it).
Proof. exact cache_forever'. Qed.
Print Assumptions C55_no_expiry.
Example C55_example :
  option_map (fun s => events_of 0 (f_trace s)) (frun 10 f0 ex_normal) = Some ex_normal_events /\
  option_map (fun s => (f_map s ex_h, f_pc s 0%nat)) (frun 0 f0 (ex_fetch 0 ex_k1)) =
    Some (Some {| ce_key := ex_k1; ce_at := 0 |}, FIdle) /\
  option_map (fun s => f_trace s) (frun 0 f0 (ex_fetch 0 ex_k1 ++ [AtTime 1000; Call 3 ex_h; Go 3 None])) =
    Some [(3%nat, 1000, ECached ex_h ex_k1 0); (3%nat, 1000, ELoad ex_h); (0%nat, 0, EFresh ex_h ex_k1);
          (0%nat, 0, EAsk ex_h (Some ex_k1)); (0%nat, 0, ELoad ex_h)].
Proof. vm_compute. auto. Qed.

(** A key stored just now may be asked for again: the collector, having seen the
    expired entry, deletes the one that replaced it. *)
Theorem C79_served_until_ttl_refuted : exists s pre i t t' pk r, freachable 10 s /\
  f_trace s = (i, t', EAsk ex_h r) :: (i, t', ELoad ex_h) :: (1%nat, t, EFresh ex_h pk) :: pre /\
  (Z.of_N t' - Z.of_N t <= 10)%Z.
Proof. exact race_refetch. Qed.
Print Assumptions C79_served_until_ttl_refuted.
