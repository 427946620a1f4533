(** Parts that hold of properties refuted elsewhere: C108, C121. *)
From Verif Require Import Bytes BytesProofs SecretMgr SecretMgrProofs SpecSecretMgr.

Definition key_of (o : mop) : bytes := match o with MStore k _ _ | MLoad k _ => k | MGc _ => [] end.
Lemma gc_recent ttl m g k it : (0 < ttl)%Z -> mgr_gc ttl m g k = Some it -> m k = Some it /\ (g - ttl <= it_last it)%Z.
Proof.
  intros T. unfold mgr_gc. destruct (Z.ltb_spec 0 ttl); [|lia]. destruct (m k) as [x|]; [|discriminate].
  destruct (Z.ltb_spec ttl (g - it_last x)); [discriminate|]. intros [= <-]. split; [reflexivity|lia].
Qed.
Lemma last_was_used ttl h : forall k it, mgr_exec ttl h k = Some it ->
  exists o, In o h /\ key_of o = k /\ used_since (it_last it) o = true.
Proof.
  induction h as [|o h IH] using rev_ind; intros k it E; [discriminate|]. rewrite exec_snoc in E.
  assert (Old : mgr_exec ttl h k = Some it -> exists o', In o' (h ++ [o]) /\ key_of o' = k /\ used_since (it_last it) o' = true).
  { intros X. destruct (IH k it X) as (o' & A & B). exists o'. split; [apply in_or_app; auto|exact B]. }
  destruct o as [k' p t|k' t|t]; cbn [mgr_step] in E.
  - unfold mgr_store, smap_set in E. destruct (bytes_eqb_spec k k') as [->|]; [|auto]. injection E as <-. cbn [it_last].
    exists (MStore k' p t). split; [apply in_or_app; right; left; reflexivity|]. split; [reflexivity|]. cbn. apply Z.leb_refl.
  - unfold mgr_load in E. destruct (mgr_exec ttl h k') as [x|] eqn:X; [|auto]. cbn [snd] in E. unfold smap_set in E.
    destruct (bytes_eqb_spec k k') as [->|]; [|auto]. injection E as <-. cbn [it_last].
    exists (MLoad k' t). split; [apply in_or_app; right; left; reflexivity|]. split; [reflexivity|]. cbn. apply Z.leb_refl.
  - unfold mgr_gc in E. destruct (0 <? ttl)%Z; [|auto]. destruct (mgr_exec ttl h k) as [x|] eqn:X; [|discriminate].
    destruct (_ <? _)%Z; [discriminate|]. injection E as <-. auto.
Qed.
Lemma used_mono t t' o : (t <= t')%Z -> used_since t' o = true -> used_since t o = true.
Proof. intros H. destruct o; cbn; rewrite ?Z.leb_le; lia. Qed.
Lemma after_gc ttl a g b : (0 < ttl)%Z -> Forall (fun o => at_least g o) b -> forall k it, mgr_exec ttl (a ++ MGc g :: b) k = Some it ->
  (g - ttl <= it_last it)%Z.
Proof.
  intros T. induction b as [|o b IH] using rev_ind; intros F k it E.
  - rewrite exec_snoc in E. apply gc_recent in E; [|exact T]. tauto.
  - apply Forall_app in F as [F F1]. inversion F1 as [|? ? G _]; subst.
    replace (a ++ MGc g :: b ++ [o]) with ((a ++ MGc g :: b) ++ [o]) in E by (rewrite <- app_assoc; reflexivity). rewrite exec_snoc in E.
    destruct o as [k' p t|k' t|t]; cbn [mgr_step at_least] in *.
    + unfold mgr_store, smap_set in E. destruct (bytes_eqb k k'); [|eauto]. injection E as <-. cbn. lia.
    + unfold mgr_load in E. destruct (mgr_exec ttl (a ++ MGc g :: b) k') as [x|] eqn:X; [|eauto]. cbn [snd] in E. unfold smap_set in E.
      destruct (bytes_eqb k k'); [|eauto]. injection E as <-. cbn. lia.
    + unfold mgr_gc in E. destruct (0 <? ttl)%Z; [|eauto]. destruct (mgr_exec ttl (a ++ MGc g :: b) k) as [x|] eqn:X; [|discriminate].
      destruct (_ <? _)%Z; [discriminate|]. injection E as <-. eauto.
Qed.
Lemma sessions_bounded ttl a g b : (0 < ttl)%Z -> Forall (fun o => at_least g o) b ->
  exists l, (length l <= length (filter (used_since (g - ttl)) (a ++ MGc g :: b)))%nat /\
  forall k, mgr_exec ttl (a ++ MGc g :: b) k <> None -> In k l.
Proof.
  intros T F. exists (map key_of (filter (used_since (g - ttl)) (a ++ MGc g :: b))). split; [rewrite map_length; lia|].
  intros k H. destruct (mgr_exec ttl (a ++ MGc g :: b) k) as [it|] eqn:E; [|congruence].
  destruct (last_was_used _ _ _ _ E) as (o & Io & <- & U). apply in_map, filter_In. split; [exact Io|].
  apply (used_mono _ (it_last it)); [apply (after_gc ttl a g b T F _ _ E)|exact U].
Qed.

From Verif Require Import Resources SpecResources.
Lemma own_managers s m1 s1 m2 s2 : gnum s -> new_server None s = GOk m1 s1 -> new_server None s1 = GOk m2 s2 ->
  exists g1 g2, m1 = MMemory (Some g1) /\ m2 = MMemory (Some g2) /\
  In g1 (g_running s2) /\ In g2 (g_running s2) /\
  In g2 (g_running (close_server m1 s2)) /\ ~ In g1 (g_running (close_server m1 s2)) /\
  In g1 (g_running (close_server m2 s2)) /\ ~ In g2 (g_running (close_server m2 s2)).
Proof.
  intros N H1 H2. unfold new_server, new_memory_manager in H1, H2. cbn in H1, H2.
  injection H1 as <- <-. injection H2 as <- <-. cbn [g_next g_running].
  exists (g_next s), (Datatypes.S (g_next s)). unfold close_server, close_manager. cbn [g_running g_next].
  split; [reflexivity|]. split; [reflexivity|]. split; [cbn; auto|]. split; [cbn; auto|].
  rewrite !filter_In. rewrite !Nat.eqb_refl.
  assert (A : Nat.eqb (Datatypes.S (g_next s)) (g_next s) = false) by (apply Nat.eqb_neq; lia).
  assert (B : Nat.eqb (g_next s) (Datatypes.S (g_next s)) = false) by (apply Nat.eqb_neq; lia).
  rewrite A, B. cbn. intuition discriminate.
Qed.
