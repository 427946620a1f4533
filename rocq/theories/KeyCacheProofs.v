From Verif Require Import Bytes BytesProofs Crypto ClientConc KeyCache SpecKeyCache.

Definition asked (tr : list (nat * N * fev)) (h : bytes) (pk : pubkey) (by_ : N) : Prop :=
  exists j t, In (j, t, EAsk h (Some pk)) tr /\ t <= by_.
Definition okentry (tr : list (nat * N * fev)) (now : N) (h : bytes) (it : centry) : Prop :=
  asked tr h (ce_key it) (ce_at it) /\ ce_at it <= now.

Definition okev (ttl : Z) (x : nat * N * fev) (pre : list (nat * N * fev)) : Prop :=
  match snd x with
  | ECached h pk a => ((0 < ttl)%Z -> (Z.of_N (snd (fst x)) - Z.of_N a <= ttl)%Z) /\
                      a <= snd (fst x) /\ asked pre h pk a
  | _ => True
  end.
Fixpoint oktr (ttl : Z) (tr : list (nat * N * fev)) : Prop :=
  match tr with [] => True | x :: pre => okev ttl x pre /\ oktr ttl pre end.

Definition okpc (tr : list (nat * N * fev)) (now : N) (p : fpc) : Prop :=
  match p with
  | FIdle | FDelete _ | FFetch _ => True
  | FLoaded h it | FStore h it => okentry tr now h it
  | FNow h pk => asked tr h pk now
  end.
Record finv (ttl : Z) (s : fstt) : Prop := {
  fi_map : forall h it, f_map s h = Some it -> okentry (f_trace s) (f_now s) h it;
  fi_pc : forall i, okpc (f_trace s) (f_now s) (f_pc s i);
  fi_tr : oktr ttl (f_trace s) }.

Lemma asked_more l tr h pk n m : n <= m -> asked tr h pk n -> asked (l ++ tr) h pk m.
Proof. intros L (j & t & I & H). exists j, t. split; [apply in_or_app; auto|lia]. Qed.
Lemma okentry_more l tr h it n m : n <= m -> okentry tr n h it -> okentry (l ++ tr) m h it.
Proof. intros L [A B]. split; [apply (asked_more l tr h _ _ _ (N.le_refl _) A)|lia]. Qed.
Lemma okpc_more l tr p n m : n <= m -> okpc tr n p -> okpc (l ++ tr) m p.
Proof.
  intros L. destruct p; cbn; auto; [apply okentry_more; exact L|apply asked_more; exact L|apply okentry_more; exact L].
Qed.
Lemma hset_same m h v : hset m h v h = v.
Proof. unfold hset. rewrite bytes_eqb_refl. reflexivity. Qed.
Lemma hset_some m h v h' it : hset m h v h' = Some it -> (h' = h /\ v = Some it) \/ m h' = Some it.
Proof. unfold hset. destruct (bytes_eqb_spec h' h); auto. Qed.

Lemma finv_go ttl s i p m ev :
  finv ttl s ->
  (forall h it, m h = Some it -> f_map s h = Some it \/ okentry (map (fun e => (i, f_now s, e)) ev ++ f_trace s) (f_now s) h it) ->
  okpc (map (fun e => (i, f_now s, e)) ev ++ f_trace s) (f_now s) p ->
  oktr ttl (map (fun e => (i, f_now s, e)) ev ++ f_trace s) ->
  finv ttl (f_go s i p m ev).
Proof.
  intros I Hm Hp Ht. constructor; cbn [f_go f_map f_trace f_now f_pc].
  - intros h it H. destruct (Hm h it H) as [H'|H']; [|exact H'].
    apply (okentry_more _ _ _ _ _ _ (N.le_refl _)), (fi_map ttl s I), H'.
  - intros j. unfold upd. destruct (Nat.eqb j i); [exact Hp|].
    apply (okpc_more _ _ _ _ _ (N.le_refl _)), (fi_pc ttl s I).
  - exact Ht.
Qed.

Lemma finv_step ttl s s' : finv ttl s -> fstep ttl s s' -> finv ttl s'.
Proof.
  intros I H. destruct H as [n L|i h it P M|i h P M|i h it P F|i h it P Z F|i h P|i h pk P|i h P|i h pk P|i h it P|h it G Z M F|h G].
  - constructor; cbn.
    + intros h it H. apply (okentry_more [] _ _ _ _ _ L), (fi_map ttl s I), H.
    + intros i. apply (okpc_more [] _ _ _ _ L), (fi_pc ttl s I).
    + apply (fi_tr ttl s I).
  - apply finv_go; auto; cbn; [|split; [exact Logic.I|apply (fi_tr ttl s I)]].
    apply (okentry_more [_] _ _ _ _ _ (N.le_refl _)), (fi_map ttl s I), M.
  - apply finv_go; auto; cbn; [exact Logic.I|split; [exact Logic.I|apply (fi_tr ttl s I)]].
  - pose proof (fi_pc ttl s I i) as K. rewrite P in K. cbn in K. destruct K as [A B].
    apply finv_go; auto; cbn; [exact Logic.I|]. split; [|apply (fi_tr ttl s I)]. cbn. repeat split; [|exact B|exact A].
    intros Z. destruct F as [F|F]; [lia|]. unfold expired in F. apply Z.ltb_ge in F. exact F.
  - apply finv_go; auto; cbn; [exact Logic.I|apply (fi_tr ttl s I)].
  - apply finv_go; auto; cbn; [|exact Logic.I|apply (fi_tr ttl s I)].
    intros h' it H. apply hset_some in H as [[_ H]|H]; [discriminate|auto].
  - apply finv_go; auto; cbn; [|split; [exact Logic.I|apply (fi_tr ttl s I)]].
    exists i, (f_now s). split; [left; reflexivity|lia].
  - apply finv_go; auto; cbn; [exact Logic.I|]. repeat split; apply (fi_tr ttl s I).
  - pose proof (fi_pc ttl s I i) as K. rewrite P in K. cbn in K.
    apply finv_go; auto; cbn; [|apply (fi_tr ttl s I)]. split; cbn; [exact K|lia].
  - pose proof (fi_pc ttl s I i) as K. rewrite P in K. cbn in K.
    apply finv_go; auto; cbn; [|exact Logic.I|split; [exact Logic.I|apply (fi_tr ttl s I)]].
    intros h' it' H. apply hset_some in H as [[-> H]|H]; [|auto]. injection H as <-. right.
    apply (okentry_more [_] _ _ _ _ _ (N.le_refl _)), K.
  - constructor; cbn; apply I.
  - constructor; cbn; [|apply I|apply I].
    intros h' it H. apply hset_some in H as [[_ H]|H]; [discriminate|]. apply (fi_map ttl s I), H.
Qed.
Lemma finv_reachable ttl s : freachable ttl s -> finv ttl s.
Proof.
  induction 1 as [|s s' _ IH St]; [|exact (finv_step _ _ _ IH St)].
  constructor; cbn; [discriminate|intros i; exact Logic.I|exact Logic.I].
Qed.
Lemma oktr_split ttl post x pre : oktr ttl (post ++ x :: pre) -> okev ttl x pre.
Proof. induction post as [|y post IH]; cbn; tauto. Qed.

Theorem cache_fresh ttl s post pre i t h pk a : freachable ttl s ->
  f_trace s = post ++ (i, t, ECached h pk a) :: pre ->
  ((0 < ttl)%Z -> (Z.of_N t - Z.of_N a <= ttl)%Z) /\ a <= t /\
  exists j t', In (j, t', EAsk h (Some pk)) pre /\ t' <= a.
Proof.
  intros R E. pose proof (fi_tr ttl s (finv_reachable ttl s R)) as T. rewrite E in T.
  apply oktr_split in T. exact T.
Qed.

(** * The events of a call *)
Definition sofar (p : fpc) (l : list fev) : Prop :=
  match p with
  | FIdle => calls l
  | FLoaded h _ | FDelete h | FFetch h => exists l', calls l' /\ l = l' ++ [ELoad h]
  | FNow h pk => exists l', calls l' /\ l = l' ++ [ELoad h; EAsk h (Some pk)]
  | FStore h it => exists l', calls l' /\ l = l' ++ [ELoad h; EAsk h (Some (ce_key it))]
  end.
Lemma events_go s i p m ev j : events_of j (f_trace (f_go s i p m ev)) =
  events_of j (f_trace s) ++ (if Nat.eqb i j then rev ev else []).
Proof.
  unfold events_of. cbn [f_go f_trace]. rewrite rev_app_distr, filter_app, map_app. f_equal.
  rewrite <- map_rev. generalize (rev ev) as l. intros l. induction l as [|e l IH]; [destruct (Nat.eqb i j); reflexivity|].
  cbn [map filter fst snd]. destruct (Nat.eqb i j); cbn [map]; [f_equal|]; exact IH.
Qed.
Lemma sofar_go s i p m ev :
  (forall j, sofar (f_pc s j) (events_of j (f_trace s))) ->
  sofar p (events_of i (f_trace s) ++ rev ev) ->
  forall j, sofar (f_pc (f_go s i p m ev) j) (events_of j (f_trace (f_go s i p m ev))).
Proof.
  intros IH H j. rewrite events_go. cbn [f_go f_pc]. unfold upd. rewrite Nat.eqb_sym.
  destruct (Nat.eqb_spec i j) as [<-|]; [exact H|]. rewrite app_nil_r. apply IH.
Qed.
Lemma sofar_reachable ttl s : freachable ttl s -> forall i, sofar (f_pc s i) (events_of i (f_trace s)).
Proof.
  induction 1 as [|s s' _ IH St]; [intros i; constructor|].
  destruct St as [n L|i h it P M|i h P M|i h it P F|i h it P Z F|i h P|i h pk P|i h P|i h pk P|i h it P|h it G Z M F|h G];
    try exact IH; apply sofar_go; try exact IH; pose proof (IH i) as K; rewrite P in K; cbn in K |- *;
    rewrite ?app_nil_r.
  - eauto.
  - eauto.
  - destruct K as (l & C & ->). rewrite <- app_assoc. cbn. constructor. exact C.
  - exact K.
  - exact K.
  - destruct K as (l & C & ->). rewrite <- app_assoc. cbn. eauto.
  - destruct K as (l & C & ->). rewrite <- app_assoc. cbn. constructor. exact C.
  - exact K.
  - destruct K as (l & C & ->). rewrite <- app_assoc. cbn. constructor. exact C.
Qed.
Theorem cache_calls ttl s i : freachable ttl s -> calls_so_far (events_of i (f_trace s)).
Proof.
  intros R. pose proof (sofar_reachable ttl s R i) as H. unfold calls_so_far.
  destruct (f_pc s i); cbn in H; [auto|..]; destruct H as (l & C & E); eauto 8.
Qed.

(** * No expiry *)
Lemma busy_dec p h : busy_with p h -> p <> FIdle.
Proof. intros B ->. exact B. Qed.
Lemma upd_same {A} (f : nat -> A) i v : upd f i v i = v.
Proof. unfold upd. rewrite Nat.eqb_refl. reflexivity. Qed.

Theorem cache_forever ttl s s' h it : (ttl <= 0)%Z -> f_map s h = Some it -> f_gc s = GIdle ->
  (forall i, ~ busy_with (f_pc s i) h) -> fsteps ttl s s' ->
  f_map s' h = Some it /\ exists new, f_trace s' = new ++ f_trace s /\
    forall i t e, In (i, t, e) new ->
      (forall r, e <> EAsk h r) /\ (forall pk a, e = ECached h pk a -> pk = ce_key it).
Proof.
  intros T M G Q R.
  assert (f_map s' h = Some it /\ f_gc s' = GIdle /\
    (forall i, busy_with (f_pc s' i) h -> f_pc s' i = FLoaded h it) /\
    exists new, f_trace s' = new ++ f_trace s /\
    forall i t e, In (i, t, e) new ->
      (forall r, e <> EAsk h r) /\ (forall pk a, e = ECached h pk a -> pk = ce_key it)) as K.
  2:{ destruct K as (K1 & _ & _ & K2). auto. }
  induction R as [|s' s'' _ IH St].
  - repeat split; auto; [|exists []; split; [reflexivity|intros i t e []]]. intros i B. destruct (Q i B).
  - destruct IH as (Hm & Hg & Hp & new & E & Hn).
    assert (Hpc : forall i p m ev, (forall j, j <> i -> busy_with (f_pc s' j) h -> f_pc s' j = FLoaded h it) ->
      (busy_with p h -> p = FLoaded h it) ->
      forall j, busy_with (f_pc (f_go s' i p m ev) j) h -> f_pc (f_go s' i p m ev) j = FLoaded h it).
    { intros i p m ev H1 H2 j. cbn. unfold upd. destruct (Nat.eqb_spec j i); auto. }
    assert (Hev : forall i p m ev, (forall e, In e ev -> (forall r, e <> EAsk h r) /\ (forall pk a, e = ECached h pk a -> pk = ce_key it)) ->
      exists new, f_trace (f_go s' i p m ev) = new ++ f_trace s /\
        forall j t e, In (j, t, e) new -> (forall r, e <> EAsk h r) /\ (forall pk a, e = ECached h pk a -> pk = ce_key it)).
    { intros i p m ev H. exists (map (fun e => (i, f_now s', e)) ev ++ new). cbn [f_go f_trace]. rewrite E, app_assoc.
      split; [reflexivity|]. intros j t e I. apply in_app_or in I as [I|I]; [|apply (Hn _ _ _ I)].
      apply in_map_iff in I as (e' & [= _ _ <-] & I). apply H, I. }
    destruct St as [n L|i h' it' P M'|i h' P M'|i h' it' P F|i h' it' P Z F|i h' P|i h' pk P|i h' P|i h' pk P|i h' it' P|h' it' G' Z M' F|h' G'].
    + cbn. repeat split; auto. exists new. auto.
    + split; [exact Hm|]. split; [exact Hg|]. split.
      * apply Hpc; [auto|]. cbn. intros ->. congruence.
      * apply Hev. intros e [<-|[]]. split; discriminate.
    + split; [exact Hm|]. split; [exact Hg|]. split.
      * apply Hpc; [auto|]. cbn. intros ->. congruence.
      * apply Hev. intros e [<-|[]]. split; discriminate.
    + split; [exact Hm|]. split; [exact Hg|]. split.
      * apply Hpc; [auto|]. intros [].
      * apply Hev. intros e [<-|[]]. split; [discriminate|]. intros pk a [= -> <- _].
        specialize (Hp i). rewrite P in Hp. specialize (Hp eq_refl). congruence.
    + lia.
    + assert (h' <> h) as D by (intros ->; specialize (Hp i); rewrite P in Hp; specialize (Hp eq_refl); discriminate).
      split; [cbn; unfold hset; destruct (bytes_eqb_spec h h'); [congruence|exact Hm]|]. split; [exact Hg|]. split.
      * apply Hpc; [auto|]. cbn. congruence.
      * apply Hev. intros e [].
    + assert (h' <> h) as D by (intros ->; specialize (Hp i); rewrite P in Hp; specialize (Hp eq_refl); discriminate).
      split; [exact Hm|]. split; [exact Hg|]. split.
      * apply Hpc; [auto|]. cbn. congruence.
      * apply Hev. intros e [<-|[]]. split; [intros r; congruence|discriminate].
    + assert (h' <> h) as D by (intros ->; specialize (Hp i); rewrite P in Hp; specialize (Hp eq_refl); discriminate).
      split; [exact Hm|]. split; [exact Hg|]. split.
      * apply Hpc; [auto|]. intros [].
      * apply Hev. intros e [<-|[<-|[]]]; (split; [intros r; congruence|discriminate]).
    + assert (h' <> h) as D by (intros ->; specialize (Hp i); rewrite P in Hp; specialize (Hp eq_refl); discriminate).
      split; [exact Hm|]. split; [exact Hg|]. split.
      * apply Hpc; [auto|]. cbn. congruence.
      * apply Hev. intros e [].
    + assert (h' <> h) as D by (intros ->; specialize (Hp i); rewrite P in Hp; specialize (Hp eq_refl); discriminate).
      split; [cbn; unfold hset; destruct (bytes_eqb_spec h h'); [congruence|exact Hm]|]. split; [exact Hg|]. split.
      * apply Hpc; [auto|]. intros [].
      * apply Hev. intros e [<-|[]]. split; discriminate.
    + lia.
    + congruence.
Qed.

(** Without expiry the collector never runs. *)
Lemma no_gc ttl s : (ttl <= 0)%Z -> freachable ttl s -> f_gc s = GIdle.
Proof.
  intros T. induction 1 as [|s s' _ IH St]; [reflexivity|].
  destruct St; cbn; auto; try lia.
Qed.
Theorem cache_forever' ttl s s' h it : (ttl <= 0)%Z -> freachable ttl s -> f_map s h = Some it ->
  (forall i, ~ busy_with (f_pc s i) h) -> fsteps ttl s s' ->
  f_map s' h = Some it /\ exists new, f_trace s' = new ++ f_trace s /\
    forall i t e, In (i, t, e) new ->
      (forall r, e <> EAsk h r) /\ (forall pk a, e = ECached h pk a -> pk = ce_key it).
Proof. intros T R M. apply cache_forever; auto. apply (no_gc ttl s T R). Qed.
