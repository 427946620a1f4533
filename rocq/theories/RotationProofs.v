(** The server changes its key while clients cache it. *)
From Verif Require Import Bytes BytesProofs Crypto ClientConc KeyCache SpecKeyCache KeyCacheProofs KeyCacheExamples.


Section Rotation.
  Variables (ttl : Z) (h : bytes) (new : pubkey) (T : N).
  Definition renewed (it : centry) : Prop := ce_key it = new \/ ce_at it <= T.
  Definition pc_renewed (p : fpc) : Prop :=
    match p with
    | FLoaded h' it => h' = h -> renewed it
    | FStore h' it => h' = h -> ce_key it = new
    | FNow h' pk => h' = h -> pk = new
    | _ => True
    end.
  Definition ev_new (x : nat * N * fev) : Prop :=
    (forall pk a, snd x = ECached h pk a -> (Z.of_N T + ttl < Z.of_N (snd (fst x)))%Z -> pk = new) /\ (forall pk, snd x = EFresh h pk -> pk = new).
  Definition ask_new (x : nat * N * fev) : Prop := forall pk, snd x = EAsk h (Some pk) -> pk = new.
  Definition rinv (s : fstt) : Prop := (forall it, f_map s h = Some it -> renewed it) /\ forall i, pc_renewed (f_pc s i).

  Lemma rinv_go s i p m ev : rinv s -> (forall it, m h = Some it -> f_map s h = Some it \/ renewed it) -> pc_renewed p -> rinv (f_go s i p m ev).
  Proof.
    intros [M P] Hm Hp. split; cbn.
    - intros it H. destruct (Hm it H); auto.
    - intros j. unfold upd. destruct (Nat.eqb j i); auto.
  Qed.

  Lemma rinv_step s s' : (0 < ttl)%Z -> rinv s -> fstep ttl s s' ->
    exists l, f_trace s' = l ++ f_trace s /\ (Forall ask_new l -> rinv s' /\ Forall ev_new l).
  Proof.
    intros Z0 I H. pose proof I as [M P].
    assert (E0 : forall e i n, (forall h' pk a, e <> ECached h' pk a) -> (forall h' pk, e <> EFresh h' pk) -> ev_new (i, n, e)).
    { intros e i n A B. split; cbn; intros pk; [intros a X|intros X]; exfalso; [exact (A _ _ _ X)|exact (B _ _ X)]. }
    destruct H as [n L|i h' it Pc Mh|i h' Pc Mh|i h' it Pc F|i h' it Pc Z F|i h' Pc|i h' pk Pc|i h' Pc|i h' pk Pc|i h' it Pc|h' it G Z Mh F|h' G].
    - exists []. split; [reflexivity|]. intros _. split; [split; assumption|constructor].
    - eexists [_]. split; [reflexivity|]. intros _. split; [apply rinv_go; auto; cbn; intros ->; apply M, Mh|].
      constructor; [apply E0; discriminate|constructor].
    - eexists [_]. split; [reflexivity|]. intros _. split; [apply rinv_go; cbn; auto|]. constructor; [apply E0; discriminate|constructor].
    - eexists [_]. split; [reflexivity|]. intros _. split; [apply rinv_go; cbn; auto|].
      constructor; [|constructor]. split; cbn; [|intros pk X; discriminate X].
      intros pk a X. injection X as -> <- <-. intros Ht. specialize (P i). rewrite Pc in P. cbn in P. destruct (P eq_refl) as [X|X]; [exact X|].
      exfalso. destruct F as [F|F]; [lia|]. unfold expired in F. apply Z.ltb_ge in F. lia.
    - exists []. split; [reflexivity|]. intros _. split; [apply rinv_go; cbn; auto|constructor].
    - exists []. split; [reflexivity|]. intros _. split; [|constructor]. apply rinv_go; cbn; auto. intros it X. apply hset_some in X. destruct X as [[_ X]|X]; [discriminate X|auto].
    - eexists [_]. split; [reflexivity|]. intros A. inversion A as [|? ? A1 _]; subst. split; [|constructor; [apply E0; discriminate|constructor]].
      apply rinv_go; cbn; auto. intros ->. apply A1. reflexivity.
    - eexists [_; _]. split; [reflexivity|]. intros _. split; [apply rinv_go; cbn; auto|]. repeat (constructor; [apply E0; discriminate|]). constructor.
    - exists []. split; [reflexivity|]. intros _. split; [|constructor]. apply rinv_go; cbn; auto. specialize (P i). rewrite Pc in P. exact P.
    - eexists [_]. split; [reflexivity|]. intros _. specialize (P i). rewrite Pc in P. cbn in P. split.
      + apply rinv_go; cbn; auto. intros it' X. apply hset_some in X. destruct X as [[<- X]|X]; [|auto]. injection X as <-. right. left. apply P. reflexivity.
      + constructor; [|constructor]. split; cbn; [intros pk a X; discriminate X|]. intros pk X. injection X as -> <-. apply P. reflexivity.
    - exists []. split; [reflexivity|]. intros _. split; [split; assumption|constructor].
    - exists []. split; [reflexivity|]. intros _. split; [|constructor]. split; cbn; [|exact P]. intros it X. apply hset_some in X. destruct X as [[_ X]|X]; [discriminate X|auto].
  Qed.

  Lemma rinv_steps s s' : (0 < ttl)%Z -> rinv s -> fsteps ttl s s' ->
    exists l, f_trace s' = l ++ f_trace s /\ (Forall ask_new l -> rinv s' /\ Forall ev_new l).
  Proof.
    intros Z0 I H. induction H as [|s1 s2 H (l & E & IH) S]; [exists []; auto|].
    assert (X : exists l1, f_trace s2 = l1 ++ f_trace s1 /\ (Forall ask_new l -> Forall ask_new l1 -> rinv s2 /\ Forall ev_new l1)).
    { assert (exists l1, f_trace s2 = l1 ++ f_trace s1) as (l1 & E1).
      { clear - S. destruct S; cbn; try (eexists []; reflexivity); try (eexists [_]; reflexivity). eexists [_; _]. reflexivity. }
      exists l1. split; [exact E1|]. intros A A1. destruct (IH A) as [I1 _]. destruct (rinv_step s1 s2 Z0 I1 S) as (l1' & E1' & K).
      rewrite E1 in E1'. apply app_inv_tail in E1'. subst l1'. apply K, A1. }
    destruct X as (l1 & E1 & K). exists (l1 ++ l). split; [rewrite E1, E, app_assoc; reflexivity|]. intros A. apply Forall_app in A. destruct A as [A1 A2].
    destruct (K A2 A1) as [I2 V]. split; [exact I2|]. apply Forall_app. split; [exact V|]. apply IH, A2.
  Qed.
End Rotation.

Lemma rotated ttl h new s s' l : (0 < ttl)%Z -> freachable ttl s -> (forall i, ~ storing (f_pc s i) h) -> fsteps ttl s s' ->
  f_trace s' = l ++ f_trace s -> (forall i t pk, In (i, t, EAsk h (Some pk)) l -> pk = new) ->
  forall i t pk, (exists a, In (i, t, ECached h pk a) l /\ (Z.of_N (f_now s) + ttl < Z.of_N t)%Z) \/ In (i, t, EFresh h pk) l -> pk = new.
Proof.
  intros Z0 R Hs H E A i t pk X. destruct (finv_reachable ttl s R) as [Fm Fp _].
  assert (I : rinv h new (f_now s) s).
  { split; [intros it M; right; apply (Fm _ _ M)|]. intros j. specialize (Fp j). specialize (Hs j). unfold pc_renewed, storing in *.
    destruct (f_pc s j) as [|h' it|h'|h'|h' pk'|h' it]; auto.
    - intros _. right. apply Fp.
    - intros ->. exfalso. apply Hs. exists pk', {| ce_key := pk'; ce_at := 0 |}. auto.
    - intros ->. exfalso. apply Hs. exists (ce_key it), it. auto. }
  destruct (rinv_steps ttl h new (f_now s) s s' Z0 I H) as (l' & E' & K). rewrite E in E'. apply app_inv_tail in E'. subst l'.
  assert (A' : Forall (ask_new h new) l) by (apply Forall_forall; intros [[j u] e] Hj pk' X'; cbn in X'; subst e; eapply A, Hj).
  destruct (K A') as [_ V]. rewrite Forall_forall in V. destruct X as [(a & X & Ht)|X]; specialize (V _ X); [eapply (proj1 V); [reflexivity|exact Ht]|eapply (proj2 V); reflexivity].
Qed.

(** A goroutine that is slow between the answer and the reading of the clock. *)
Lemma rotation_late ttl d h old : (0 < ttl)%Z ->
  exists s s' i t a, freachable ttl s /\ f_now s = 0 /\ fsteps ttl s s' /\ f_trace s = [(0%nat, 0, EAsk h (Some old)); (0%nat, 0, ELoad h)] /\
    f_trace s' = [(i, t, ECached h old a); (i, t, ELoad h); (0%nat, t, EFresh h old)] ++ f_trace s /\ d < t.
Proof.
  intros Z0.
  set (s1 := f_go f0 0 (FFetch h) (f_map f0) [ELoad h]).
  set (s2 := f_go s1 0 (FNow h old) (f_map s1) [EAsk h (Some old)]).
  set (s3 := {| f_now := d + 1; f_map := f_map s2; f_pc := f_pc s2; f_gc := f_gc s2; f_trace := f_trace s2 |}).
  set (it := {| ce_key := old; ce_at := d + 1 |}).
  set (s4 := f_go s3 0 (FStore h it) (f_map s3) []).
  set (s5 := f_go s4 0 FIdle (hset (f_map s4) h (Some it)) [EFresh h old]).
  set (s6 := f_go s5 1 (FLoaded h it) (f_map s5) [ELoad h]).
  set (s7 := f_go s6 1 FIdle (f_map s6) [ECached h old (d + 1)]).
  assert (R1 : fstep ttl f0 s1) by (apply FCallMiss; reflexivity).
  assert (R2 : fstep ttl s1 s2) by (apply FAsked; reflexivity).
  assert (R3 : fstep ttl s2 s3) by (apply FTick; cbn; lia).
  assert (R4 : fstep ttl s3 s4) by (apply FTimed; reflexivity).
  assert (R5 : fstep ttl s4 s5) by (apply (FStored ttl s4 0 h it); reflexivity).
  assert (R6 : fstep ttl s5 s6) by (apply FCallHit; [reflexivity|cbn; apply hset_same]).
  assert (R7 : fstep ttl s6 s7).
  { apply (FReturn ttl s6 1 h it); [reflexivity|right]. unfold expired. apply Z.ltb_ge. cbn. lia. }
  exists s2, s7, 1%nat, (d + 1), (d + 1).
  split; [eapply FNext; [eapply FNext; [constructor|exact R1]|exact R2]|]. split; [reflexivity|].
  split; [do 5 (eapply FMore; [|eassumption]); constructor|]. split; [reflexivity|]. split; [reflexivity|]. lia.
Qed.
