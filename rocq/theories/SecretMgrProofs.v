From Verif Require Import Bytes BytesProofs SecretMgr.

Lemma smap_set_same m k v : smap_set m k v k = v.
Proof. unfold smap_set. rewrite bytes_eqb_refl. reflexivity. Qed.
Lemma smap_set_other m k v k' : k' <> k -> smap_set m k v k' = m k'.
Proof. intros H. unfold smap_set. destruct (bytes_eqb_spec k' k); congruence. Qed.

(** ** Specification vocabulary on histories *)
Definition stores (k : bytes) (o : mop) : Prop :=
  match o with MStore k' _ _ => k' = k | _ => False end.
Definition is_gc (o : mop) : Prop := match o with MGc _ => True | _ => False end.
Definition time_of (o : mop) : Z := match o with MStore _ _ t => t | MLoad _ t => t | MGc t => t end.
Definition touches (k : bytes) (o : mop) : bool :=
  match o with MStore k' _ _ | MLoad k' _ => bytes_eqb k' k | MGc _ => false end.
(** Time of the latest Store or Load of [k] in [h], [t0] if there is none. *)
Definition last_use (k : bytes) (t0 : Z) (h : list mop) : Z :=
  fold_left (fun t o => if touches k o then time_of o else t) h t0.

Lemma exec_app ttl h1 h2 : mgr_exec ttl (h1 ++ h2) = fold_left (mgr_step ttl) h2 (mgr_exec ttl h1).
Proof. apply fold_left_app. Qed.
Lemma exec_snoc ttl h o : mgr_exec ttl (h ++ [o]) = mgr_step ttl (mgr_exec ttl h) o.
Proof. rewrite exec_app. reflexivity. Qed.

Lemma step_other ttl m o k : touches k o = false -> ~ is_gc o -> mgr_step ttl m o k = m k.
Proof.
  destruct o as [k' p t|k' t|t]; cbn [touches is_gc mgr_step]; intros H Hg; [| |tauto].
  - apply smap_set_other. intros ->. rewrite bytes_eqb_refl in H. discriminate.
  - unfold mgr_load. destruct (m k') as [it|]; cbn [snd]; [|reflexivity].
    apply smap_set_other. intros ->. rewrite bytes_eqb_refl in H. discriminate.
Qed.

(** What is loaded was stored under that id, and was the latest. *)
Lemma load_latest ttl h k p now :
  fst (mgr_load (mgr_exec ttl h) k now) = Some p ->
  exists h1 t h2, h = h1 ++ MStore k p t :: h2 /\ Forall (fun o => ~ stores k o) h2.
Proof.
  unfold mgr_load. destruct (mgr_exec ttl h k) as [it|] eqn:E; [|discriminate]. cbn [fst]. intros [= <-].
  revert it E. induction h as [|o h IH] using rev_ind; intros it E; [discriminate|].
  rewrite exec_snoc in E.
  assert (K : forall it', mgr_exec ttl h k = Some it' -> it_session it' = it_session it -> ~ stores k o ->
    exists h1 t h2, h ++ [o] = h1 ++ MStore k (it_session it) t :: h2 /\ Forall (fun o => ~ stores k o) h2).
  { intros it' E' S Ho. destruct (IH it' E') as (h1 & t & h2 & -> & F). rewrite S.
    exists h1, t, (h2 ++ [o]). split; [rewrite <- app_assoc; reflexivity|].
    apply Forall_app. split; [exact F|]. constructor; [exact Ho|constructor]. }
  destruct o as [k' p' t|k' t|t]; cbn [mgr_step] in E.
  - destruct (bytes_eqb_spec k k') as [<-|Hk].
    + unfold mgr_store in E. rewrite smap_set_same in E. injection E as <-. cbn [it_session].
      exists h, t, []. split; [reflexivity|constructor].
    + unfold mgr_store in E. rewrite smap_set_other in E by exact Hk. apply (K it E eq_refl). cbn; congruence.
  - unfold mgr_load in E. destruct (mgr_exec ttl h k') as [it'|] eqn:E'; cbn [snd] in E.
    + destruct (bytes_eqb_spec k k') as [<-|Hk].
      * rewrite smap_set_same in E. injection E as <-. cbn [it_session] in *. apply (K it' E' eq_refl). cbn; tauto.
      * rewrite smap_set_other in E by exact Hk. apply (K it E eq_refl). cbn; tauto.
    + apply (K it E eq_refl). cbn; tauto.
  - unfold mgr_gc in E. destruct (0 <? ttl)%Z.
    + destruct (mgr_exec ttl h k) as [it'|] eqn:E'; [|discriminate].
      destruct (ttl <? t - it_last it')%Z; [discriminate|]. injection E as <-.
      apply (K it' eq_refl eq_refl). cbn; tauto.
    + apply (K it E eq_refl). cbn; tauto.
Qed.

(** A session survives as long as every collection finds it used recently. *)
Lemma kept_aux ttl k p t0 h2 : forall m, m k = Some {| it_session := p; it_last := t0 |} ->
  Forall (fun o => ~ stores k o) h2 ->
  (forall a g b, h2 = a ++ MGc g :: b -> (0 < ttl)%Z -> (g - last_use k t0 a <= ttl)%Z) ->
  fold_left (mgr_step ttl) h2 m k = Some {| it_session := p; it_last := last_use k t0 h2 |}.
Proof.
  revert t0. induction h2 as [|o h2 IH]; intros t0 m Hm Hs Hg; [exact Hm|].
  inversion Hs as [|? ? Ho Hs']; subst. cbn [fold_left]. unfold last_use; cbn [fold_left]. fold (last_use k).
  assert (Hg' : forall t1, t1 = (if touches k o then time_of o else t0) ->
            forall a g b, h2 = a ++ MGc g :: b -> (0 < ttl)%Z -> (g - last_use k t1 a <= ttl)%Z).
  { intros t1 -> a g b -> Hp. exact (Hg (o :: a) g b eq_refl Hp). }
  destruct o as [k' p' t|k' t|t]; cbn [touches time_of] in *.
  - destruct (bytes_eqb_spec k' k) as [->|Hk]; [exfalso; apply Ho; reflexivity|].
    apply IH; [|exact Hs'|exact (Hg' _ eq_refl)].
    cbn [mgr_step]. unfold mgr_store. rewrite smap_set_other by congruence. exact Hm.
  - destruct (bytes_eqb_spec k' k) as [->|Hk]; (apply IH; [|exact Hs'|exact (Hg' _ eq_refl)]); cbn [mgr_step]; unfold mgr_load.
    + rewrite Hm. cbn [snd it_session]. apply smap_set_same.
    + destruct (m k') as [it|]; cbn [snd]; [|exact Hm]. rewrite smap_set_other by congruence. exact Hm.
  - apply IH; [|exact Hs'|exact (Hg' _ eq_refl)]. cbn [mgr_step]. unfold mgr_gc.
    destruct (Z.ltb_spec 0 ttl) as [Hp|Hp]; [|exact Hm]. rewrite Hm. cbn [it_last].
    specialize (Hg [] t h2 eq_refl Hp). cbn [last_use fold_left] in Hg.
    destruct (Z.ltb_spec ttl (t - t0)); [lia|reflexivity].
Qed.
Lemma kept ttl k p t0 h1 h2 now :
  Forall (fun o => ~ stores k o) h2 ->
  (forall a g b, h2 = a ++ MGc g :: b -> (0 < ttl)%Z -> (g - last_use k t0 a <= ttl)%Z) ->
  fst (mgr_load (mgr_exec ttl (h1 ++ MStore k p t0 :: h2)) k now) = Some p.
Proof.
  intros Hs Hg. rewrite exec_app. cbn [fold_left]. unfold mgr_load.
  change (mgr_step ttl (mgr_exec ttl h1) (MStore k p t0))
    with (smap_set (mgr_exec ttl h1) k (Some {| it_session := p; it_last := t0 |})).
  rewrite (kept_aux ttl k p t0 h2 _ (smap_set_same _ k _) Hs Hg). reflexivity.
Qed.

Lemma gone_stays ttl k h : forall m, m k = None -> Forall (fun o => ~ stores k o) h ->
  fold_left (mgr_step ttl) h m k = None.
Proof.
  induction h as [|o h IH]; intros m Hm Hs; [exact Hm|]. inversion Hs as [|? ? Ho Hs']; subst.
  cbn [fold_left]. apply IH; [|exact Hs']. destruct o as [k' p' t|k' t|t]; cbn [mgr_step].
  - unfold mgr_store. rewrite smap_set_other; [exact Hm|]. intros ->. apply Ho. reflexivity.
  - unfold mgr_load. destruct (m k') as [it|] eqn:E; cbn [snd]; [|exact Hm].
    rewrite smap_set_other; [exact Hm|]. congruence.
  - unfold mgr_gc. destruct (0 <? ttl)%Z; [|exact Hm]. rewrite Hm. reflexivity.
Qed.

(** An idle session is gone after the next collection. *)
Lemma collected ttl k p t0 h1 a g b now : (0 < ttl)%Z ->
  Forall (fun o => ~ stores k o) a -> Forall (fun o => ~ stores k o) b ->
  (ttl < g - last_use k t0 a)%Z ->
  fst (mgr_load (mgr_exec ttl (h1 ++ MStore k p t0 :: a ++ MGc g :: b)) k now) = None.
Proof.
  intros Hp Ha Hb Hg. rewrite exec_app. cbn [fold_left]. rewrite fold_left_app. cbn [fold_left].
  unfold mgr_load. rewrite gone_stays; [reflexivity| |exact Hb].
  cbn [mgr_step]. unfold mgr_gc. destruct (Z.ltb_spec 0 ttl); [|lia].
  (* before the collection the entry is absent or was last used at [last_use] *)
  assert (K : forall l t m, (m k = None \/ m k = Some {| it_session := p; it_last := t |}) ->
     Forall (fun o => ~ stores k o) l ->
     fold_left (mgr_step ttl) l m k = None \/
     fold_left (mgr_step ttl) l m k = Some {| it_session := p; it_last := last_use k t l |}).
  { clear - Hp. induction l as [|o l IH]; intros t m Hm Hs; [exact Hm|]. inversion Hs as [|? ? Ho Hs']; subst.
    cbn [fold_left]. unfold last_use; cbn [fold_left]. fold (last_use k).
    destruct Hm as [Hm|Hm].
    { left. apply (gone_stays ttl k (o :: l) m Hm Hs). }
    apply IH; [|exact Hs']. destruct o as [k' p' t'|k' t'|t']; cbn [mgr_step touches time_of].
    - destruct (bytes_eqb_spec k' k) as [->|Hk]; [exfalso; apply Ho; reflexivity|].
      right. unfold mgr_store. rewrite smap_set_other by congruence. exact Hm.
    - right. unfold mgr_load. destruct (bytes_eqb_spec k' k) as [->|Hk].
      + rewrite Hm. cbn [snd it_session]. apply smap_set_same.
      + destruct (m k') as [it|]; cbn [snd]; [|exact Hm]. rewrite smap_set_other by congruence. exact Hm.
    - unfold mgr_gc. destruct (Z.ltb_spec 0 ttl); [|lia]. rewrite Hm. cbn [it_last].
      destruct (ttl <? t' - t)%Z; auto. }
  destruct (K a t0 _ (or_intror (smap_set_same (mgr_exec ttl h1) k
      (Some {| it_session := p; it_last := t0 |}))) Ha) as [E|E];
    (change (mgr_step ttl (mgr_exec ttl h1) (MStore k p t0))
      with (smap_set (mgr_exec ttl h1) k (Some {| it_session := p; it_last := t0 |})) || unfold mgr_store); rewrite E.
  - reflexivity.
  - cbn [it_last]. destruct (Z.ltb_spec ttl (g - last_use k t0 a)); [reflexivity|lia].
Qed.

(** Other ids are not affected by Store and Load. *)
Lemma others ttl h o k now : touches k o = false -> ~ is_gc o ->
  fst (mgr_load (mgr_exec ttl (h ++ [o])) k now) = fst (mgr_load (mgr_exec ttl h) k now).
Proof.
  intros Ht Hg. rewrite exec_snoc. unfold mgr_load. rewrite (step_other ttl _ o k Ht Hg).
  destruct (mgr_exec ttl h k); reflexivity.
Qed.

Lemma never_stored ttl h k now : Forall (fun o => ~ stores k o) h ->
  fst (mgr_load (mgr_exec ttl h) k now) = None.
Proof.
  intros H. unfold mgr_load. unfold mgr_exec. rewrite (gone_stays ttl k h smap_empty eq_refl H). reflexivity.
Qed.

(** ** Interleavings *)
Definition called (tr : list mev) (k : bytes) (p : nat) : Prop :=
  exists t, In (MeCall t (MpStore k p)) tr.

Record mginv (tr : list mev) (s : mstate) : Prop := {
  mg_map : forall k it, ms_map s k = Some it -> called tr k (it_session it);
  mg_pc : forall t,
    match ms_pc s t with
    | MpStore k p | MpStore2 k p _ | MpStored k p => called tr k p
    | MpLoad2 k it | MpLoad3 k it _ => called tr k (it_session it)
    | MpLoaded k (Some p) => called tr k p
    | _ => True
    end }.

Lemma called_snoc tr e k p : called tr k p -> called (tr ++ [e]) k p.
Proof. intros [t H]. exists t. apply in_or_app; left; exact H. Qed.

Lemma mginv_step ttl tr s e : mginv tr s -> mginv (tr ++ [e]) (mstep ttl s e).
Proof.
  intros [Hm Hp].
  assert (I0 : mginv (tr ++ [e]) s).
  { constructor.
    - intros k it H. apply called_snoc, Hm, H.
    - intros t. specialize (Hp t). destruct (ms_pc s t) as [| | | | | | |k [p|]]; auto using called_snoc. }
  assert (Hset : forall s' t p, (forall k it, ms_map s' k = Some it -> called (tr ++ [e]) k (it_session it)) ->
     ms_pc s' = ms_pc s ->
     match p with
     | MpStore k p | MpStore2 k p _ | MpStored k p => called (tr ++ [e]) k p
     | MpLoad2 k it | MpLoad3 k it _ => called (tr ++ [e]) k (it_session it)
     | MpLoaded k (Some p) => called (tr ++ [e]) k p
     | _ => True
     end -> mginv (tr ++ [e]) (set_pc s' t p)).
  { intros s' t p H1 H2 H3. constructor; [exact H1|]. intros t'. cbn [set_pc ms_pc]. unfold mupd.
    destruct (Nat.eqb t' t); [exact H3|]. rewrite H2. exact (mg_pc _ _ I0 t'). }
  destruct e as [t p|t|d|k|]; cbn [mstep].
  - destruct (quiet (ms_pc s t) && is_call p) eqn:E; [|exact I0].
    apply Hset; [exact (mg_map _ _ I0)|reflexivity|].
    destruct p as [|k p| | |k| | |k r]; cbn in E; rewrite ?andb_false_r in E; try discriminate; [|exact I].
    exists t. apply in_or_app; right; left; reflexivity.
  - pose proof (mg_pc _ _ I0 t) as Ht.
    destruct (ms_pc s t) as [|k p|k p now|k p|k|k it|k it now|k r] eqn:Et; try exact I0.
    + apply Hset; [exact (mg_map _ _ I0)|reflexivity|exact Ht].
    + apply Hset; [|reflexivity|exact Ht]. cbn [set_map ms_map]. intros k' it' H.
      destruct (bytes_eqb_spec k' k) as [->|Hk].
      * rewrite smap_set_same in H. injection H as <-. exact Ht.
      * rewrite smap_set_other in H by exact Hk. apply (mg_map _ _ I0 _ _ H).
    + destruct (ms_map s k) as [it|] eqn:Em; apply Hset; try exact (mg_map _ _ I0); try reflexivity; try exact I.
      apply (mg_map _ _ I0 _ _ Em).
    + apply Hset; [exact (mg_map _ _ I0)|reflexivity|exact Ht].
    + apply Hset; [|reflexivity|exact Ht]. cbn [set_map ms_map]. intros k' it' H.
      destruct (bytes_eqb_spec k' k) as [->|Hk].
      * rewrite smap_set_same in H. injection H as <-. exact Ht.
      * rewrite smap_set_other in H by exact Hk. apply (mg_map _ _ I0 _ _ H).
  - destruct I0 as [A B]. constructor; assumption.
  - destruct (ms_gc s), (ms_map s k) as [it|]; try exact I0.
    destruct ((0 <? ttl)%Z && (ttl <? ms_now s - it_last it)%Z); [|exact I0].
    destruct I0 as [A B]. constructor; assumption.
  - destruct (ms_gc s) as [k|]; [|exact I0]. destruct I0 as [A B]. constructor; [|exact B].
    cbn [ms_map]. intros k' it' H. destruct (bytes_eqb_spec k' k) as [->|Hk].
    + rewrite smap_set_same in H. discriminate.
    + rewrite smap_set_other in H by exact Hk. exact (A _ _ H).
Qed.

Lemma mginv_run ttl tr : mginv tr (mrun ttl tr).
Proof.
  induction tr as [|e tr IH] using rev_ind.
  - constructor; [intros k it H; discriminate|intros t; exact I].
  - unfold mrun. rewrite fold_left_app. cbn [fold_left]. apply mginv_step. exact IH.
Qed.

(** Under every interleaving, Load only returns what was stored under that id. *)
Lemma load_any_interleaving ttl tr t k p :
  ms_pc (mrun ttl tr) t = MpLoaded k (Some p) -> exists t', In (MeCall t' (MpStore k p)) tr.
Proof. intros H. pose proof (mg_pc _ _ (mginv_run ttl tr) t) as Hp. rewrite H in Hp. exact Hp. Qed.

Lemma no_ttl ttl k p t0 h1 h2 now : (ttl <= 0)%Z -> Forall (fun o => ~ stores k o) h2 ->
  fst (mgr_load (mgr_exec ttl (h1 ++ MStore k p t0 :: h2)) k now) = Some p.
Proof. intros Ht Hs. apply kept; [exact Hs|]. intros; lia. Qed.

(** ** Races *)
Lemma gc_race : exists ttl tr t k p tr' t',
  (0 < ttl)%Z /\
  ms_pc (mrun ttl tr) t = MpLoaded k (Some p) /\
  (forall d, ~ In (MeTick d) tr') /\ (forall u q, ~ In (MeCall u (MpStore k q)) tr') /\
  In (MeCall t' (MpLoad k)) tr' /\
  ms_pc (mrun ttl (tr ++ tr')) t' = MpLoaded k None.
Proof.
  exists 10%Z,
    [MeCall 0 (MpStore [x01] 7); MeStep 0; MeStep 0; MeTick 11; MeGcCheck [x01];
     MeCall 1 (MpLoad [x01]); MeStep 1; MeStep 1; MeStep 1],
    1%nat, [x01], 7%nat, [MeGcDelete; MeCall 2 (MpLoad [x01]); MeStep 2], 2%nat.
  repeat split; try (vm_compute; reflexivity).
  - intros d [H|[H|[H|[]]]]; discriminate.
  - intros u q [H|[H|[H|[]]]]; discriminate.
  - right; left; reflexivity.
Qed.
Lemma load_store_race : exists ttl tr t k p tr' t' p',
  ms_pc (mrun ttl tr) t = MpStored k p /\
  (forall u q now, ms_pc (mrun ttl tr) u <> MpStore k q /\ ms_pc (mrun ttl tr) u <> MpStore2 k q now) /\
  (forall u q, ~ In (MeCall u (MpStore k q)) tr') /\ In (MeCall t' (MpLoad k)) tr' /\
  (forall e, In e tr' -> e <> MeStep t) /\
  ms_pc (mrun ttl (tr ++ tr')) t' = MpLoaded k (Some p') /\ p' <> p.
Proof.
  exists 10%Z,
    [MeCall 0 (MpStore [x01] 7); MeStep 0; MeStep 0;
     MeCall 1 (MpLoad [x01]); MeStep 1; MeStep 1;
     MeCall 0 (MpStore [x01] 8); MeStep 0; MeStep 0],
    0%nat, [x01], 8%nat,
    [MeStep 1; MeCall 2 (MpLoad [x01]); MeStep 2; MeStep 2; MeStep 2], 2%nat, 7%nat.
  split; [vm_compute; reflexivity|]. split.
  { intros u q now. destruct u as [|[|u]]; vm_compute; split; discriminate. }
  repeat split; try (vm_compute; reflexivity).
  - intros u q [H|[H|[H|[H|[H|[]]]]]]; discriminate.
  - right; left; reflexivity.
  - intros e [H|[H|[H|[H|[H|[]]]]]]; subst e; discriminate.
  - discriminate.
Qed.
