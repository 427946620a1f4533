(** Property C168: the server changes its key. *)
From Verif Require Import Bytes Crypto ClientConc KeyCache SpecKeyCache KeyCacheProofs KeyCacheExamples RotationProofs.

(** C168. Wanted: once a server changed its key, Fetch returns the old one for the
    TTL at most. It is not so: the time to live counts from a reading of the clock
    after the underlying fetcher answered, not from the question. Whatever the TTL
    and however long [d], a goroutine may have got the old key at time 0, and a
    Fetch that starts and ends later than [d] returns it; in between the fetcher is
    not asked. *)
Theorem C168_rotation_refuted : forall ttl d h old, (0 < ttl)%Z ->
  exists s s' i t a, freachable ttl s /\ f_now s = 0 /\ fsteps ttl s s' /\ f_trace s = [(0%nat, 0, EAsk h (Some old)); (0%nat, 0, ELoad h)] /\
    f_trace s' = [(i, t, ECached h old a); (i, t, ELoad h); (0%nat, t, EFresh h old)] ++ f_trace s /\ d < t.
Proof. exact rotation_late. Qed.
Print Assumptions C168_rotation_refuted.

(** It is so if, at the time of the change, no call holds an answer it has not yet
    stored: when from [s] on the underlying fetcher only gives the new key, what
    Fetch returns from the cache later than the TTL after is the new key, and so is
    all it returns otherwise. [l] are the events since. (Without expiry the old key
    is returned for ever: C55_no_expiry.) *)
Theorem C168_rotation_partial : forall ttl h new s s' l, (0 < ttl)%Z -> freachable ttl s -> (forall i, ~ storing (f_pc s i) h) -> fsteps ttl s s' ->
  f_trace s' = l ++ f_trace s -> (forall i t pk, In (i, t, EAsk h (Some pk)) l -> pk = new) ->
  forall i t pk, (exists a, In (i, t, ECached h pk a) l /\ (Z.of_N (f_now s) + ttl < Z.of_N t)%Z) \/ In (i, t, EFresh h pk) l -> pk = new.
Proof. exact rotated. Qed.
Print Assumptions C168_rotation_partial.
(** The key changes at time 5; at 10 the old one is still returned, at 11 the new one. *)
Example C168_example : ex_k1 <> ex_k2 /\
  option_map (fun s => (f_now s, map (f_pc s) [0%nat; 1%nat], f_trace s)) (frun 10 f0 (ex_fetch 0 ex_k1 ++ [AtTime 5])) =
    Some (5, [FIdle; FIdle], [(0%nat, 0, EFresh ex_h ex_k1); (0%nat, 0, EAsk ex_h (Some ex_k1)); (0%nat, 0, ELoad ex_h)]) /\
  option_map (fun s => firstn 3 (f_trace s)) (frun 10 f0 (ex_fetch 0 ex_k1 ++ [AtTime 5; AtTime 10; Call 0 ex_h; Go 0 None])) =
    Some [(0%nat, 10, ECached ex_h ex_k1 0); (0%nat, 10, ELoad ex_h); (0%nat, 0, EFresh ex_h ex_k1)] /\
  option_map (fun s => firstn 2 (f_trace s)) (frun 10 f0 (ex_fetch 0 ex_k1 ++ [AtTime 5; AtTime 11; Call 0 ex_h; Go 0 None; Go 0 None; Go 0 (Some ex_k2); Go 0 None; Go 0 None;
      AtTime 20; Call 1 ex_h; Go 1 None])) =
    Some [(1%nat, 20, ECached ex_h ex_k2 11); (1%nat, 20, ELoad ex_h)].
Proof. split; [discriminate|]. vm_compute. auto. Qed.
