(** What remains of C25, C26, C77, C79 and C104. *)
From Coq Require Import Strings.String.
From Verif Require Import Bytes Crypto Kdf Wire WireSeq Toy Server Client ClientConc SpecClientConc Replay SpecReplay SecretMgr Keys
  Dnssec SpecDnssec DnssecThms DnssecExamples KeyCache SpecKeyCache KeyCacheExamples ClientExamples ClientConcExamples SpecPartial PartialProofs2.

(** C25. A session returned by Load stays for the TTL, counted from the reading of
    the clock in Load, if at its last step the collector is not about to delete it
    and no other operation on the id is in progress. Later Loads may overlap.
    Missing: operations in progress at that moment. *)
Theorem C25_load_refreshes_partial : forall ttl tr t k it now tr' u r, ms_pc (mrun ttl tr) t = MpLoad3 k it now ->
  busy_free k (mrun ttl tr) t -> ms_gc (mrun ttl tr) <> Some k ->
  (forall v q, ~ In (MeCall v (MpStore k q)) tr') ->
  ((0 < ttl)%Z -> (ms_now (mrun ttl (tr ++ MeStep t :: tr')) - now <= ttl)%Z) ->
  In (MeCall u (MpLoad k)) tr' -> ms_pc (mrun ttl (tr ++ MeStep t :: tr')) u = MpLoaded k r -> r = Some (it_session it).
Proof. exact load_then_loads. Qed.
Print Assumptions C25_load_refreshes_partial.
(** Stored at 0, loaded at 8 and, after a collection at 16, again; TTL 10. *)
Example C25_partial_example :
  let k := [x01] in
  let tr := [MeCall 0 (MpStore k 7); MeStep 0; MeStep 0; MeTick 8; MeCall 1 (MpLoad k); MeStep 1; MeStep 1] in
  let tr' := [MeTick 8; MeGcCheck k; MeGcDelete; MeCall 2 (MpLoad k); MeStep 2; MeStep 2; MeStep 2] in
  ms_pc (mrun 10 tr) 1%nat = MpLoad3 k {| it_session := 7; it_last := 0 |} 8 /\ ms_gc (mrun 10 tr) = None /\
  busy_free k (mrun 10 tr) 1 /\ ms_now (mrun 10 (tr ++ MeStep 1 :: tr')) = 16%Z /\
  ms_pc (mrun 10 (tr ++ MeStep 1 :: tr')) 2%nat = MpLoaded k (Some 7%nat).
Proof.
  vm_compute. repeat split. intros u H. do 3 (destruct u as [|u]; [exact I || (destruct H; reflexivity)|]). exact I.
Qed.

(** C26. The same for Store. *)
Theorem C26_store_survives_load_partial : forall ttl tr t k p now tr' u r, ms_pc (mrun ttl tr) t = MpStore2 k p now ->
  busy_free k (mrun ttl tr) t -> ms_gc (mrun ttl tr) <> Some k ->
  (forall v q, ~ In (MeCall v (MpStore k q)) tr') ->
  ((0 < ttl)%Z -> (ms_now (mrun ttl (tr ++ MeStep t :: tr')) - now <= ttl)%Z) ->
  In (MeCall u (MpLoad k)) tr' -> ms_pc (mrun ttl (tr ++ MeStep t :: tr')) u = MpLoaded k r -> r = Some p.
Proof. exact store_then_loads. Qed.
Print Assumptions C26_store_survives_load_partial.
(** Two overlapping Loads after a Store. *)
Example C26_partial_example :
  let k := [x01] in
  let tr := [MeCall 0 (MpStore k 7); MeStep 0] in
  let tr' := [MeCall 1 (MpLoad k); MeCall 2 (MpLoad k); MeStep 1; MeStep 2; MeStep 1; MeStep 2; MeStep 2; MeStep 1] in
  ms_pc (mrun 10 tr) 0%nat = MpStore2 k 7 0 /\ busy_free k (mrun 10 tr) 0 /\
  ms_pc (mrun 10 (tr ++ MeStep 0 :: tr')) 1%nat = MpLoaded k (Some 7%nat) /\
  ms_pc (mrun 10 (tr ++ MeStep 0 :: tr')) 2%nat = MpLoaded k (Some 7%nat).
Proof.
  vm_compute. repeat split. intros u H. do 3 (destruct u as [|u]; [exact I || (destruct H; reflexivity)|]). exact I.
Qed.

(** C77. If no zone-signing record of the answer has malformed material, the key of
    the first one is returned. Missing: malformed records in front. *)
Theorem C77_malformed_does_not_hide_partial : forall answers good alg raw pk, In good answers -> zsk good alg raw -> material alg raw pk ->
  (forall x a r, In x answers -> zsk x a r -> exists k, material a r k) ->
  exists pre x post a r k, answers = pre ++ x :: post /\ zsk x a r /\ material a r k /\
    (forall y b q, In y pre -> ~ zsk y b q) /\ doh_retrieve (DohAnswer 200 (Some (true, answers))) = KOk k.
Proof. exact first_usable. Qed.
Print Assumptions C77_malformed_does_not_hide_partial.
(** Key-signing keys (even malformed ones) and unreadable records do not hide it. *)
Example C77_partial_example : zsk (record_text 15 (repeat x41 32)) 15 (repeat x41 32) /\ material 15 (repeat x41 32) ex_ed /\
  doh_retrieve (DohAnswer 200 (Some (true, [ksk; str "rubbish"; record_text 15 (repeat x41 32)]))) = KOk ex_ed.
Proof. split; [apply record_zsk; cbn; tauto|]. split; [constructor; reflexivity|vm_compute; reflexivity]. Qed.

(** C79. A key cached while no call for the host is in progress and the collector is
    not about to delete it is what all calls return until the TTL has passed, and
    the fetcher is not asked. Missing: operations in progress at that moment. *)
Theorem C79_served_until_ttl_partial : forall ttl s s' h it, f_map s h = Some it -> f_gc s <> GDelete h ->
  (forall i, ~ busy_with (f_pc s i) h) -> fsteps ttl s s' -> (Z.of_N (f_now s') - Z.of_N (ce_at it) <= ttl)%Z ->
  f_map s' h = Some it /\ exists new, f_trace s' = new ++ f_trace s /\
    forall i t e, In (i, t, e) new -> (forall r, e <> EAsk h r) /\ (forall pk a, e = ECached h pk a -> pk = ce_key it).
Proof. exact fresh_is_served. Qed.
Print Assumptions C79_served_until_ttl_partial.
Example C79_partial_example :
  option_map (fun s => (f_map s ex_h, f_gc s, f_pc s 0%nat)) (frun 10 f0 (ex_fetch 0 KeyCacheExamples.ex_k1)) =
    Some (Some {| ce_key := KeyCacheExamples.ex_k1; ce_at := 0 |}, GIdle, FIdle) /\
  option_map (fun s => hd_error (f_trace s)) (frun 10 f0 (ex_fetch 0 KeyCacheExamples.ex_k1 ++ [AtTime 10; Call 3 ex_h; Go 3 None])) =
    Some (Some (3%nat, 10, ECached ex_h KeyCacheExamples.ex_k1 0)).
Proof. vm_compute. auto. Qed.

(** C104. Requests of clients sharing a session may be lost and arrive in any order;
    as long as none arrives after one that is 64 or more ahead, and none arrives
    twice, all that arrive pass the replay filter of the session. [ns] are the
    places in the trace where the requests were sent. Missing: requests overtaken by
    64 or more. *)
Theorem C104_pool_requests_accepted_partial : forall C W k s ns cs, kreachable C W k -> adds s (k_trace k) <= 2 ^ 64 ->
  NoDup ns -> Forall2 (request_at W k s) ns cs ->
  (forall before c after, cs = before ++ c :: after -> forall x, In x before -> x < c + 64) ->
  fst (checks new_window cs) = repeat true (length cs).
Proof. exact in_window_accepted. Qed.
Print Assumptions C104_pool_requests_accepted_partial.
(** Two clients, the second request overtaking the first. *)
Example C104_partial_example : kreachable toy ex_W ClientConcExamples.ex_k1 /\
  Forall2 (request_at ex_W ClientConcExamples.ex_k1 0) [2%nat; 0%nat] [2; 1] /\ NoDup [2%nat; 0%nat].
Proof.
  split; [exact ex_k1_reach|]. split; [|repeat constructor; cbn; intuition discriminate].
  constructor; [|constructor; [|constructor]].
  - exists 0%nat, 51, 0%nat, [x41], (gcm_seal toy ex_ckey (x00 :: repeat x00 3 ++ be_enc 8 2) [x41]).
    split; [vm_compute; reflexivity|]. split; [eexists; split; [vm_compute; reflexivity|split; reflexivity]|split; reflexivity].
  - exists 1%nat, 51, 1%nat, [x42], (gcm_seal toy ex_ckey (x00 :: repeat x00 3 ++ be_enc 8 1) [x42]).
    split; [vm_compute; reflexivity|]. split; [eexists; split; [vm_compute; reflexivity|split; reflexivity]|split; reflexivity].
Qed.
