From Verif Require Import Bytes BytesProofs Replay SpecReplay ReplayProofs ReplayConc.

Definition critical (p : pc) : Prop :=
  match p with PStart _ | PDone _ | PUnlock _ => False | _ => True end.

Fixpoint iterc (n : nat) (pw : pc * window) : pc * window :=
  match n with O => pw | S n => iterc n (crit_step (fst pw) (snd pw)) end.

(** The critical section run without interruption is [check_and_update]. *)
Lemma crit_total w c : c <> 0 -> exists n,
  iterc n (P38 c, w) = (PUnlock (fst (check_and_update w c)), snd (check_and_update w c)).
Proof.
  intros Hc. unfold check_and_update. destruct (N.eqb_spec c 0); [congruence|].
  destruct (w_highest w <? c) eqn:E1; cbv zeta.
  - destruct (replay_window_size <=? c - w_highest w) eqn:E2.
    + exists 4%nat. cbn [iterc crit_step fst snd]. rewrite E1. cbn [iterc crit_step fst snd]. rewrite E2.
      reflexivity.
    + exists 5%nat. cbn [iterc crit_step fst snd]. rewrite E1. cbn [iterc crit_step fst snd]. rewrite E2.
      reflexivity.
  - destruct (replay_window_size <=? w_highest w - c) eqn:E2.
    + exists 2%nat. cbn [iterc crit_step fst snd]. rewrite E1. cbn [iterc crit_step fst snd]. rewrite E2.
      reflexivity.
    + destruct (negb (N.land (w_bitmap w) ((N.shiftl 1 (w_highest w - c)) mod two64) =? 0)) eqn:E3.
      * exists 3%nat. cbn [iterc crit_step fst snd]. rewrite E1. cbn [iterc crit_step fst snd]. rewrite E2.
        cbn [iterc crit_step fst snd]. rewrite E3. reflexivity.
      * exists 5%nat. cbn [iterc crit_step fst snd]. rewrite E1. cbn [iterc crit_step fst snd]. rewrite E2.
        cbn [iterc crit_step fst snd]. rewrite E3. reflexivity.
Qed.

(** [pw] will end as the sequential call would. *)
Definition leads (pw : pc * window) (rw : bool * window) : Prop :=
  exists n, iterc n pw = (PUnlock (fst rw), snd rw).

Lemma leads_step p w rw : critical p -> leads (p, w) rw -> leads (crit_step p w) rw.
Proof.
  intros Hp [n H]. destruct n as [|n].
  - cbn [iterc] in H. injection H as -> _. destruct Hp.
  - exists n. exact H.
Qed.
Lemma leads_unlock r w rw : leads (PUnlock r, w) rw -> rw = (r, w).
Proof.
  intros [n H]. assert (E : iterc n (PUnlock r, w) = (PUnlock r, w)).
  { clear H. induction n as [|n IH]; [reflexivity|exact IH]. }
  rewrite E in H. injection H as -> ->. destruct rw; reflexivity.
Qed.
Lemma crit_step_shape p w : critical p ->
  critical (fst (crit_step p w)) \/ exists r, fst (crit_step p w) = PUnlock r.
Proof.
  destruct p; cbn [critical]; intros H; try tauto; cbn [crit_step fst]; eauto;
    match goal with |- context [if ?b then _ else _] => destruct b end; cbn [critical]; eauto.
Qed.

Record rinv (w0 : window) (f : nat -> N) (s : rstate) (order : list nat) : Prop := {
  ri_nodup : NoDup order;
  ri_nz : forall t, In t order -> f t <> 0;
  ri_out : forall t, ~ In t order -> r_pc s t = PStart (f t) \/ (f t = 0 /\ r_pc s t = PDone false);
  ri_lock :
    match r_lock s with
    | None => exists rs, checks w0 (map f order) = (rs, r_win s) /\ map (answer s) order = map Some rs
    | Some t => exists done rs w1,
        order = done ++ [t] /\ checks w0 (map f done) = (rs, w1) /\
        map (answer s) done = map Some rs /\
        (critical (r_pc s t) \/ exists r, r_pc s t = PUnlock r) /\
        leads (r_pc s t, r_win s) (check_and_update w1 (f t))
    end }.

Lemma upd_same {A} (f : nat -> A) t v : upd f t v t = v.
Proof. unfold upd. rewrite Nat.eqb_refl. reflexivity. Qed.
Lemma upd_other {A} (f : nat -> A) t v t' : t' <> t -> upd f t v t' = f t'.
Proof. intros H. unfold upd. destruct (Nat.eqb_spec t' t); congruence. Qed.

Lemma answer_upd s lk w t p order :
  ~ In t order ->
  map (answer {| r_lock := lk; r_win := w; r_pc := upd (r_pc s) t p |}) order = map (answer s) order.
Proof.
  intros H. apply map_ext_in. intros t' Ht'. unfold answer; cbn [r_pc].
  rewrite upd_other by congruence. reflexivity.
Qed.

Lemma rinv_init w0 f : rinv w0 f (rinit w0 f) [].
Proof.
  constructor; cbn; auto; try (intros ? []); [constructor|]. exists []. auto.
Qed.

Lemma in_done w0 f s order t : rinv w0 f s order -> In t order -> r_lock s <> Some t ->
  exists r, r_pc s t = PDone r.
Proof.
  intros I Hin Hl. destruct I as [_ _ _ L]. destruct (r_lock s) as [t'|].
  - destruct L as (done & rs & w1 & -> & _ & Hm & _). rewrite in_app_iff in Hin. cbn [In] in Hin.
    destruct Hin as [Hin|[->|[]]]; [|congruence].
    assert (Ha : In (answer s t) (map Some rs)) by (rewrite <- Hm; apply in_map, Hin).
    apply in_map_iff in Ha as (r & Hr & _). unfold answer in Hr. destruct (r_pc s t); try discriminate. eauto.
  - destruct L as (rs & _ & Hm).
    assert (Ha : In (answer s t) (map Some rs)) by (rewrite <- Hm; apply in_map, Hin).
    apply in_map_iff in Ha as (r & Hr & _). unfold answer in Hr. destruct (r_pc s t); try discriminate. eauto.
Qed.

Lemma checks_snoc w a c : checks w (a ++ [c]) =
  (fst (checks w a) ++ [fst (check_and_update (snd (checks w a)) c)],
   snd (check_and_update (snd (checks w a)) c)).
Proof.
  rewrite checks_app. cbn [checks]. destruct (check_and_update _ c) as [r w2]; reflexivity.
Qed.

Lemma lock_in w0 f s order t : rinv w0 f s order -> r_lock s = Some t -> In t order.
Proof.
  intros [_ _ _ L] E. rewrite E in L. destruct L as (d & rs & w1 & -> & _). apply in_or_app; right; left; reflexivity.
Qed.

Lemma rinv_step w0 f s order t : rinv w0 f s order ->
  exists more, rinv w0 f (rstep s t) (order ++ more).
Proof.
  intros I. unfold rstep.
  destruct (in_dec Nat.eq_dec t order) as [Hin|Hout].
  - destruct (r_lock s) as [h|] eqn:El.
    + destruct (Nat.eq_dec h t) as [->|Hne].
      * (* the holder *)
        exists []. rewrite app_nil_r.
        pose proof I as [Hn Hz Ho L]. rewrite El in L.
        destruct L as (done & rs & w1 & Eo & Ec & Hm & Hs & Hl).
        assert (Hnd : ~ In t done).
        { subst order. apply NoDup_remove_2 in Hn. rewrite app_nil_r in Hn. exact Hn. }
        destruct Hs as [Hcrit|[r Hr]].
        -- assert (Estep : rstep s t = let '(p', w') := crit_step (r_pc s t) (r_win s) in
              {| r_lock := r_lock s; r_win := w'; r_pc := upd (r_pc s) t p' |}).
           { unfold rstep. destruct (r_pc s t); cbn [critical] in Hcrit; try tauto; reflexivity. }
           unfold rstep in Estep. rewrite El in Estep. rewrite Estep. clear Estep.
           pose proof (leads_step _ _ _ Hcrit Hl) as Hl'. pose proof (crit_step_shape _ (r_win s) Hcrit) as Hs'.
           destruct (crit_step (r_pc s t) (r_win s)) as [p' w'] eqn:Es. cbn [fst] in Hs'.
           constructor; cbn [r_lock r_win r_pc]; auto.
           ++ intros t' Ht'. rewrite upd_other by (intros ->; contradiction). apply Ho, Ht'.
           ++ exists done, rs, w1. rewrite answer_upd by assumption. rewrite upd_same. auto.
        -- rewrite Hr. rewrite Hr in Hl. apply leads_unlock in Hl.
           constructor; cbn [r_lock r_win r_pc]; auto.
           ++ intros t' Ht'. rewrite upd_other by (intros ->; contradiction). apply Ho, Ht'.
           ++ exists (rs ++ [r]). subst order. rewrite !map_app. cbn [map]. rewrite checks_snoc, Ec. cbn [fst snd].
              rewrite Hl. cbn [fst snd]. split; [reflexivity|].
              rewrite answer_upd, Hm by assumption. f_equal. unfold answer; cbn [r_pc].
              rewrite upd_same. reflexivity.
      * exists []. rewrite app_nil_r. destruct (in_done _ _ _ _ _ I Hin) as [r Hr].
        { rewrite El. congruence. }
        rewrite Hr. exact I.
    + exists []. rewrite app_nil_r. destruct (in_done _ _ _ _ _ I Hin) as [r Hr].
      { rewrite El. congruence. }
      rewrite Hr. exact I.
  - pose proof I as [Hn Hz Ho L]. destruct (Ho t Hout) as [Hp|[Hf Hp]]; rewrite Hp.
    2:{ exists []. rewrite app_nil_r. exact I. }
    destruct (N.eqb_spec (f t) 0) as [Hf|Hf].
    + exists []. rewrite app_nil_r. constructor; cbn [r_lock r_win r_pc]; auto.
      * intros t' Ht'. destruct (Nat.eq_dec t' t) as [->|Hne]; [rewrite upd_same; auto|].
        rewrite upd_other by exact Hne. apply Ho, Ht'.
      * destruct (r_lock s) as [h|] eqn:El.
        -- destruct L as (done & rs & w1 & Eo & Ec & Hm & Hs & Hl). exists done, rs, w1.
           assert (Hh : h <> t) by (intros ->; apply Hout, (lock_in _ _ _ _ _ I El)).
           rewrite answer_upd by (intros Hd; apply Hout; subst order; apply in_or_app; left; exact Hd).
           rewrite upd_other by exact Hh. auto.
        -- destruct L as (rs & Ec & Hm). exists rs. rewrite answer_upd by exact Hout. auto.
    + destruct (r_lock s) as [h|] eqn:El; [exists []; rewrite app_nil_r; exact I|].
      exists [t]. destruct L as (rs & Ec & Hm).
      constructor; cbn [r_lock r_win r_pc].
      * apply NoDup_Add with (a := t) (l := order); [|split; assumption].
        pose proof (Add_app t order []) as A. rewrite app_nil_r in A. exact A.
      * intros t'. rewrite in_app_iff. intros [H|[<-|[]]]; [apply Hz, H|exact Hf].
      * intros t' Ht'. rewrite in_app_iff in Ht'. cbn [In] in Ht'.
        rewrite upd_other by (intros ->; tauto). apply Ho. tauto.
      * exists order, rs, (r_win s). rewrite answer_upd by exact Hout. rewrite upd_same.
        repeat split; auto; [left; exact Logic.I|]. exact (crit_total (r_win s) (f t) Hf).
Qed.

Lemma rinv_run w0 f sched : forall s order, rinv w0 f s order ->
  exists more, rinv w0 f (rrun s sched) (order ++ more).
Proof.
  induction sched as [|t sched IH]; intros s order I; cbn [rrun fold_left].
  - exists []. rewrite app_nil_r. exact I.
  - destruct (rinv_step _ _ _ _ t I) as [m1 I1]. destruct (IH _ _ I1) as [m2 I2].
    exists (m1 ++ m2). rewrite app_assoc. exact I2.
Qed.

(** The answers obtained so far are those of calling one after the other in the
    order [order]; the last caller in [order] may still be inside. *)
Definition linearised (w0 : window) (f : nat -> N) (s : rstate) (order : list nat) : Prop :=
  NoDup order /\
  (forall t b, answer s t = Some b -> f t <> 0 -> In t order) /\
  (forall t b, answer s t = Some b -> f t = 0 -> b = false) /\
  (forall i t b, nth_error order i = Some t -> answer s t = Some b ->
     nth_error (fst (checks w0 (map f order))) i = Some b) /\
  ((forall t, In t order -> answer s t <> None) -> r_win s = snd (checks w0 (map f order))).

Lemma nth_error_map' {A B} (g : A -> B) l i : nth_error (map g l) i = option_map g (nth_error l i).
Proof. revert i; induction l; intros [|i]; cbn; auto. Qed.

Lemma checks_len w cs : length (fst (checks w cs)) = length cs.
Proof. destruct (checks_total w cs) as (rs & w' & -> & H). exact H. Qed.

Lemma rinv_linearised w0 f s order : rinv w0 f s order -> linearised w0 f s order.
Proof.
  intros I. pose proof I as [Hn Hz Ho L].
  assert (Hin : forall t b, answer s t = Some b -> f t <> 0 -> In t order).
  { intros t b Ha Hf. destruct (in_dec Nat.eq_dec t order) as [H|H]; [exact H|].
    unfold answer in Ha. destruct (Ho t H) as [Hp|[Hf0 Hp]]; [rewrite Hp in Ha; discriminate|contradiction]. }
  assert (Hz0 : forall t b, answer s t = Some b -> f t = 0 -> b = false).
  { intros t b Ha Hf. destruct (in_dec Nat.eq_dec t order) as [H|H]; [exfalso; apply (Hz t H Hf)|].
    unfold answer in Ha. destruct (Ho t H) as [Hp|[Hf0 Hp]]; rewrite Hp in Ha; congruence. }
  split; [exact Hn|]. split; [exact Hin|]. split; [exact Hz0|].
  destruct (r_lock s) as [h|] eqn:El.
  - destruct L as (done & rs & w1 & Eo & Ec & Hm & Hs & Hl).
    assert (Hh : answer s h = None).
    { unfold answer. destruct Hs as [Hc|[r Hr]]; [destruct (r_pc s h); cbn in Hc; tauto|rewrite Hr; reflexivity]. }
    split.
    + intros i t b Hi Ha. rewrite Eo in Hi |- *. rewrite map_app. cbn [map]. rewrite checks_snoc, Ec. cbn [fst].
      assert (Hlen : length rs = length done).
      { pose proof (f_equal (@length _) Hm) as E. rewrite !map_length in E. auto. }
      destruct (Nat.lt_ge_cases i (length done)) as [Hlt|Hge].
      * rewrite nth_error_app1 in Hi by exact Hlt. rewrite nth_error_app1 by lia.
        assert (E : nth_error (map (answer s) done) i = nth_error (map Some rs) i) by (rewrite Hm; reflexivity).
        rewrite !nth_error_map', Hi in E. cbn [option_map] in E. rewrite Ha in E.
        destruct (nth_error rs i) as [x|]; cbn [option_map] in E; congruence.
      * exfalso. rewrite nth_error_app2 in Hi by exact Hge.
        destruct (i - length done)%nat as [|k]; cbn [nth_error] in Hi.
        -- injection Hi as <-. congruence.
        -- destruct k; discriminate.
    + intros Hall. exfalso. apply (Hall h); [|exact Hh]. rewrite Eo. apply in_or_app. right; left; reflexivity.
  - destruct L as (rs & Ec & Hm). rewrite Ec. cbn [fst snd]. split.
    + intros i t b Hi Ha.
      assert (E : nth_error (map (answer s) order) i = nth_error (map Some rs) i) by (rewrite Hm; reflexivity).
      rewrite !nth_error_map', Hi in E. cbn [option_map] in E. rewrite Ha in E.
      destruct (nth_error rs i) as [x|]; cbn [option_map] in E; congruence.
    + reflexivity.
Qed.

(** Linearisability: the order grows with the schedule, so a caller that
    returned before another one got the mutex comes first. *)
Lemma linearisable w0 f sched1 sched2 : exists order more,
  linearised w0 f (rrun (rinit w0 f) sched1) order /\
  linearised w0 f (rrun (rinit w0 f) (sched1 ++ sched2)) (order ++ more).
Proof.
  destruct (rinv_run w0 f sched1 _ _ (rinv_init w0 f)) as [o1 I1]. cbn [app] in I1.
  destruct (rinv_run w0 f sched2 _ _ I1) as [o2 I2].
  exists o1, o2. split; [apply rinv_linearised, I1|]. unfold rrun in *. rewrite fold_left_app.
  apply rinv_linearised, I2.
Qed.

(** At most one of several callers presenting the same counter is told [true]. *)
Lemma one_winner_seen seen w cs rs w' : represents w seen -> Forall (fun c => c < two64) cs ->
  checks w cs = (rs, w') ->
  forall i j c, nth_error cs i = Some c -> nth_error cs j = Some c ->
    nth_error rs i = Some true -> nth_error rs j = Some true -> i = j.
Proof.
  intros Hr Hc E. destruct (checks_refine _ _ _ _ _ Hr Hc E) as (seen' & F & _). clear E Hr Hc w w'.
  induction F as [seen|seen c0 cs rs s' Ha F IH|seen c0 cs rs s' Ha F IH]; intros i j c Hi Hj Ri Rj.
  - destruct i; discriminate.
  - assert (K : forall seen cs rs s', filter_run 64 seen cs rs s' -> forall c j, In c seen ->
       nth_error cs j = Some c -> nth_error rs j <> Some true).
    { clear. induction 1 as [seen|seen c0 cs rs s' Ha F IH|seen c0 cs rs s' Ha F IH]; intros c j Hin Hj Hr.
      - destruct j; discriminate.
      - destruct j as [|j]; cbn [nth_error] in *.
        + injection Hj as ->. destruct Ha as (_ & Ha & _). contradiction.
        + apply (IH c j (or_intror Hin) Hj Hr).
      - destruct j as [|j]; cbn [nth_error] in *; [discriminate|]. apply (IH c j Hin Hj Hr). }
    destruct i as [|i], j as [|j]; cbn [nth_error] in *.
    + reflexivity.
    + injection Hi as ->. exfalso. exact (K _ _ _ _ F c j (or_introl eq_refl) Hj Rj).
    + injection Hj as ->. exfalso. exact (K _ _ _ _ F c i (or_introl eq_refl) Hi Ri).
    + f_equal. exact (IH i j c Hi Hj Ri Rj).
  - destruct i as [|i], j as [|j]; cbn [nth_error] in *; try discriminate.
    f_equal. exact (IH i j c Hi Hj Ri Rj).
Qed.

(** From a fresh window: several goroutines with the same non-zero counter. *)
Lemma at_most_one_winner f sched t1 t2 : (forall t, f t < two64) -> f t1 = f t2 ->
  answer (rrun (rinit new_window f) sched) t1 = Some true ->
  answer (rrun (rinit new_window f) sched) t2 = Some true -> t1 = t2.
Proof.
  intros Hf He H1 H2.
  destruct (rinv_run new_window f sched _ _ (rinv_init new_window f)) as [o I]. cbn [app] in I.
  apply rinv_linearised in I as (Hn & Hin & Hz & Hres & _).
  assert (Z : forall t, answer (rrun (rinit new_window f) sched) t = Some true -> f t <> 0).
  { intros t Ha E. pose proof (Hz t true Ha E). discriminate. }
  pose proof (Hin _ _ H1 (Z _ H1)) as I1. pose proof (Hin _ _ H2 (Z _ H2)) as I2.
  apply In_nth_error in I1 as [i Hi]. apply In_nth_error in I2 as [j Hj].
  pose proof (Hres _ _ _ Hi H1) as R1. pose proof (Hres _ _ _ Hj H2) as R2.
  destruct (checks new_window (map f o)) as [rs w] eqn:E. cbn [fst] in *.
  assert (Hfo : Forall (fun c => c < two64) (map f o)).
  { apply Forall_forall. intros x Hx. apply in_map_iff in Hx as (t & <- & _). apply Hf. }
  assert (i = j).
  { eapply (one_winner_seen [] new_window (map f o) rs w represents_init Hfo E i j (f t1)); auto.
    - rewrite nth_error_map', Hi. reflexivity.
    - rewrite nth_error_map', Hj, He. reflexivity. }
  subst j. congruence.
Qed.
Lemma exactly_one_winner c n sched : 0 < c -> c < two64 -> (0 < n)%nat ->
  let s := rrun (rinit new_window (fun t => if Nat.ltb t n then c else 0)) sched in
  (forall t, (t < n)%nat -> answer s t <> None) ->
  exists t, (t < n)%nat /\ answer s t = Some true /\
    forall t', (t' < n)%nat -> t' <> t -> answer s t' = Some false.
Proof.
  intros Hc0 Hc Hn s Hall. set (f := fun t => if Nat.ltb t n then c else 0) in *.
  destruct (rinv_run new_window f sched _ _ (rinv_init new_window f)) as [o I]. cbn [app] in I. fold s in I.
  pose proof (ri_nz _ _ _ _ I) as Hz'.
  apply rinv_linearised in I as (Hnd & Hin & Hz & Hres & _).
  assert (Hfn : forall t, (t < n)%nat -> f t = c) by (intros t Ht; unfold f; destruct (Nat.ltb_spec t n); [reflexivity|lia]).
  assert (H0 : In 0%nat o).
  { destruct (answer s 0%nat) as [b|] eqn:E; [|exfalso; exact (Hall 0%nat Hn E)].
    apply (Hin 0%nat b E). rewrite Hfn by exact Hn. lia. }
  destruct o as [|t0 o']; [destruct H0|].
  assert (Ht0 : (t0 < n)%nat).
  { destruct (Nat.lt_ge_cases t0 n) as [H|H]; [exact H|]. exfalso.
    apply (Hz' t0 (or_introl eq_refl)). unfold f.
    destruct (Nat.ltb_spec t0 n); [lia|reflexivity]. }
  exists t0. split; [exact Ht0|].
  assert (A0 : answer s t0 = Some true).
  { destruct (answer s t0) as [b|] eqn:E; [|exfalso; exact (Hall t0 Ht0 E)].
    pose proof (Hres 0%nat t0 b eq_refl E) as R. cbn [map checks] in R.
    rewrite (Hfn t0 Ht0) in R.
    assert (Ec : fst (check_and_update new_window c) = true).
    { unfold check_and_update, new_window; cbn [w_highest]. destruct (N.eqb_spec c 0); [lia|].
      destruct (N.ltb_spec 0 c); [reflexivity|lia]. }
    destruct (check_and_update new_window c) as [r w1]. cbn [fst] in Ec. subst r.
    destruct (checks w1 (map f o')) as [rs w2]. cbn [fst nth_error] in R. congruence. }
  split; [exact A0|]. intros t' Ht' Hne. destruct (answer s t') as [[|]|] eqn:E.
  - exfalso. apply Hne. apply (at_most_one_winner f sched t' t0); auto.
    + intros t. unfold f. destruct (Nat.ltb t n); [exact Hc|reflexivity].
    + rewrite !Hfn; auto.
  - reflexivity.
  - exfalso. exact (Hall t' Ht' E).
Qed.
