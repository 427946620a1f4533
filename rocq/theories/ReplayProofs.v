From Verif Require Import Bytes BytesProofs Replay SpecReplay.

Lemma highest_in seen c : In c seen -> c <= highest seen.
Proof.
  induction seen as [|x seen IH]; cbn [In highest fold_right]; [tauto|].
  fold (highest seen). intros [->|H]; [lia|]. specialize (IH H). lia.
Qed.
Lemma highest_cons x seen : highest (x :: seen) = N.max x (highest seen).
Proof. reflexivity. Qed.

(** The window represents the set [seen]. *)
Record represents (w : window) (seen : list N) : Prop := {
  rep_max : w_highest w = highest seen;
  rep_nz : ~ In 0 seen;
  rep_lt : w_bitmap w < two64;
  rep_bits : forall d, d < 64 ->
    (N.testbit (w_bitmap w) d = true <-> d <= w_highest w /\ In (w_highest w - d) seen) }.

Lemma two64_pow : two64 = 2 ^ 64. Proof. reflexivity. Qed.

Lemma land_pow2 b d : N.land b (2 ^ d) = if N.testbit b d then 2 ^ d else 0.
Proof.
  apply N.bits_inj. intros i. rewrite N.land_spec, N.pow2_bits_eqb.
  destruct (N.eqb_spec d i) as [->|H].
  - destruct (N.testbit b i) eqn:E; [rewrite N.pow2_bits_true; reflexivity|rewrite N.bits_0; reflexivity].
  - rewrite andb_false_r. destruct (N.testbit b d); [|rewrite N.bits_0; reflexivity].
    rewrite N.pow2_bits_false by congruence. reflexivity.
Qed.
Lemma mask_small d : d < 64 -> (N.shiftl 1 d) mod two64 = 2 ^ d.
Proof.
  intros H. rewrite N.shiftl_1_l, two64_pow. apply N.mod_small. apply N.pow_lt_mono_r; lia.
Qed.
Lemma lor_lt_64 a b : a < two64 -> b < two64 -> N.lor a b < two64.
Proof.
  intros Ha Hb. rewrite two64_pow in *.
  destruct (N.eq_dec (N.lor a b) 0) as [->|Hn]; [reflexivity|].
  apply N.log2_lt_pow2; [lia|]. rewrite N.log2_lor.
  assert (L : forall x, x < 2 ^ 64 -> N.log2 x < 64).
  { intros x Hx. destruct (N.eq_dec x 0) as [->|]; [reflexivity|]. apply N.log2_lt_pow2; [lia|assumption]. }
  apply N.max_lub_lt; apply L; assumption.
Qed.
Lemma testbit_1 d : N.testbit 1 d = (d =? 0).
Proof. destruct d as [|[p|p|]]; reflexivity. Qed.

Lemma represents_init : represents new_window [].
Proof.
  constructor; cbn; auto; [reflexivity|]. intros d Hd. rewrite ?N.bits_0. split; [discriminate|intros [_ []]].
Qed.

Lemma represents_nil w : represents w [] -> w = new_window.
Proof.
  intros [H1 _ H3 H4]. destruct w as [h b]; cbn in *. subst h. unfold new_window. f_equal.
  apply N.bits_inj. intros i. rewrite N.bits_0. destruct (N.ltb_spec i 64) as [Hi|Hi].
  - destruct (N.testbit b i) eqn:E; [|reflexivity]. apply H4 in E; [|exact Hi]. destruct E as [_ []].
  - destruct (N.eq_dec b 0) as [->|Hb]; [apply N.bits_0|]. apply N.bits_above_log2.
    rewrite two64_pow in H3. apply N.log2_lt_pow2 in H3; [lia|lia].
Qed.

Lemma check_spec w seen c : represents w seen -> c < two64 ->
  (acceptable 64 seen c /\ exists w', check_and_update w c = (true, w') /\ represents w' (c :: seen)) \/
  (~ acceptable 64 seen c /\ check_and_update w c = (false, w)).
Proof.
  intros [Hm Hz Hb Hbits] Hc. unfold check_and_update, acceptable.
  destruct (N.eqb_spec c 0) as [->|Hc0]; [right; split; [tauto|reflexivity]|].
  destruct (N.ltb_spec (w_highest w) c) as [Hgt|Hle].
  - left. split.
    { repeat split; [assumption| |lia]. intros Hin. apply highest_in in Hin. lia. }
    eexists; split; [reflexivity|]. cbv zeta. constructor; cbn [w_highest w_bitmap].
    + rewrite highest_cons. lia.
    + cbn [In]. intros [H|H]; [congruence|exact (Hz H)].
    + destruct (replay_window_size <=? c - w_highest w); [reflexivity|].
      apply lor_lt_64; [|reflexivity]. apply N.mod_lt. discriminate.
    + intros d Hd. unfold replay_window_size.
      destruct (N.leb_spec 64 (c - w_highest w)) as [Hs|Hs].
      * rewrite testbit_1. cbn [In]. destruct (N.eqb_spec d 0) as [->|Hd0].
        { split; [intros _; split; [lia|left; lia]|reflexivity]. }
        split; [discriminate|]. intros [Hdc [H|H]]; [lia|]. apply highest_in in H. lia.
      * rewrite N.lor_spec, testbit_1, two64_pow, N.mod_pow2_bits_low by exact Hd.
        cbn [In]. destruct (N.eqb_spec d 0) as [->|Hd0].
        { rewrite orb_true_r. split; [intros _; split; [lia|left; lia]|reflexivity]. }
        rewrite orb_false_r. destruct (N.ltb_spec d (c - w_highest w)) as [Hds|Hds].
        { rewrite N.shiftl_spec_low by exact Hds. split; [discriminate|].
          intros [_ [H|H]]; [lia|]. apply highest_in in H. lia. }
        rewrite N.shiftl_spec_high' by exact Hds. rewrite Hbits by lia.
        replace (w_highest w - (d - (c - w_highest w))) with (c - d) by lia.
        split; intros [H1 H2]; (split; [lia|]).
        { right; exact H2. }
        { destruct H2 as [H2|H2]; [lia|exact H2]. }
  - cbv zeta. unfold replay_window_size.
    destruct (N.leb_spec 64 (w_highest w - c)) as [Ho|Ho].
    { right. split; [|reflexivity]. intros (_ & _ & H). lia. }
    rewrite mask_small by exact Ho. rewrite land_pow2.
    destruct (N.testbit (w_bitmap w) (w_highest w - c)) eqn:Et.
    + right. split.
      { intros (_ & H & _). apply H. apply Hbits in Et; [|exact Ho]. destruct Et as [_ Et].
        replace (w_highest w - (w_highest w - c)) with c in Et by lia. exact Et. }
      destruct (N.eqb_spec (2 ^ (w_highest w - c)) 0) as [E|E]; [|reflexivity].
      exfalso. revert E. apply N.pow_nonzero. lia.
    + left. cbn [N.eqb negb].
      assert (Hnin : ~ In c seen).
      { intros Hin. assert (T : N.testbit (w_bitmap w) (w_highest w - c) = true).
        { apply Hbits; [exact Ho|]. split; [lia|].
          replace (w_highest w - (w_highest w - c)) with c by lia. exact Hin. }
        congruence. }
      split; [repeat split; [assumption..|lia]|].
      eexists; split; [reflexivity|]. constructor; cbn [w_highest w_bitmap].
      * rewrite highest_cons. lia.
      * cbn [In]. intros [H|H]; [congruence|exact (Hz H)].
      * apply lor_lt_64; [assumption|]. rewrite two64_pow. apply N.pow_lt_mono_r; lia.
      * intros d Hd. rewrite N.lor_spec, N.pow2_bits_eqb. cbn [In].
        destruct (N.eqb_spec (w_highest w - c) d) as [<-|Hne].
        { rewrite orb_true_r. split; [intros _; split; [lia|left; lia]|reflexivity]. }
        rewrite orb_false_r, Hbits by exact Hd. split; intros [H1 H2]; (split; [exact H1|]).
        { right; exact H2. }
        { destruct H2 as [H2|H2]; [lia|exact H2]. }
Qed.

Lemma checks_refine w seen cs rs w' : represents w seen -> Forall (fun c => c < two64) cs ->
  checks w cs = (rs, w') -> exists seen', filter_run 64 seen cs rs seen' /\ represents w' seen'.
Proof.
  intros Hr Hc; revert w seen rs w' Hr; induction Hc as [|c cs Hc Hcs IH]; intros w seen rs w' Hr E; cbn [checks] in E.
  - injection E as <- <-. exists seen. split; [constructor|assumption].
  - destruct (check_spec w seen c Hr Hc) as [(Ha & w1 & E1 & R1)|(Ha & E1)]; rewrite E1 in E.
    + destruct (checks w1 cs) as [rs2 w2] eqn:E2. injection E as <- <-.
      destruct (IH _ _ _ _ R1 E2) as (seen' & F & R). exists seen'. split; [constructor; assumption|assumption].
    + destruct (checks w cs) as [rs2 w2] eqn:E2. injection E as <- <-.
      destruct (IH _ _ _ _ Hr E2) as (seen' & F & R). exists seen'. split; [constructor; assumption|assumption].
Qed.

Lemma checks_filter cs rs w : Forall (fun c => c < two64) cs ->
  checks new_window cs = (rs, w) -> exists seen, filter_run 64 [] cs rs seen.
Proof.
  intros H E. destruct (checks_refine new_window [] cs rs w represents_init H E) as (s & F & _). eauto.
Qed.

Lemma filter_run_det w seen cs rs s1 rs2 s2 :
  filter_run w seen cs rs s1 -> filter_run w seen cs rs2 s2 -> rs = rs2 /\ s1 = s2.
Proof.
  intros H; revert rs2 s2. induction H as [seen|seen c cs rs s' Ha F IH|seen c cs rs s' Ha F IH];
    intros rs2 s2 H2; inversion H2; subst; try contradiction; auto.
  - destruct (IH _ _ H6) as [-> ->]. auto.
  - destruct (IH _ _ H6) as [-> ->]. auto.
Qed.

Lemma checks_total w cs : exists rs w', checks w cs = (rs, w') /\ length rs = length cs.
Proof.
  revert w; induction cs as [|c cs IH]; intros w; cbn [checks].
  - eauto.
  - destruct (check_and_update w c) as [r w1]. destruct (IH w1) as (rs & w' & -> & L).
    do 2 eexists; split; [reflexivity|]. cbn [length]. congruence.
Qed.

Lemma filter_seen w seen cs rs s' : filter_run w seen cs rs s' ->
  forall x, In x s' <-> In x seen \/ In x (accepted cs rs).
Proof.
  induction 1 as [seen|seen c cs rs s' Ha F IH|seen c cs rs s' Ha F IH]; intros x; cbn [accepted app].
  - cbn [In]. tauto.
  - rewrite IH. cbn [In]. tauto.
  - rewrite IH. tauto.
Qed.
Lemma filter_nodup w seen cs rs s' : filter_run w seen cs rs s' -> NoDup seen ->
  NoDup (accepted cs rs) /\ (forall x, In x (accepted cs rs) -> ~ In x seen).
Proof.
  induction 1 as [seen|seen c cs rs s' Ha F IH|seen c cs rs s' Ha F IH]; intros Hn; cbn [accepted app].
  - split; [constructor|intros x []].
  - destruct Ha as (H0 & Hni & Hw). destruct IH as [I1 I2]; [constructor; assumption|].
    split.
    + constructor; [|exact I1]. intros Hin. apply (I2 _ Hin). left; reflexivity.
    + intros x [<-|Hin]; [exact Hni|]. intros Hs. apply (I2 _ Hin). right; exact Hs.
  - apply IH, Hn.
Qed.

Lemma checks_app w a b : checks w (a ++ b) =
  (fst (checks w a) ++ fst (checks (snd (checks w a)) b), snd (checks (snd (checks w a)) b)).
Proof.
  revert w; induction a as [|c a IH]; intros w; cbn [app checks].
  - cbn [fst snd app]. destruct (checks w b); reflexivity.
  - destruct (check_and_update w c) as [r w1]. rewrite IH.
    destruct (checks w1 a) as [ra wa]; cbn [fst snd app]. reflexivity.
Qed.

Lemma highest_ext a b : (forall x, In x a <-> In x b) -> highest a = highest b.
Proof.
  assert (L : forall a b, (forall x, In x a -> In x b) -> highest a <= highest b).
  { induction a0 as [|x a0 IH]; intros b0 H; [cbn; lia|]. rewrite highest_cons.
    pose proof (highest_in b0 x (H x (or_introl eq_refl))).
    specialize (IH b0 (fun y Hy => H y (or_intror Hy))). lia. }
  intros H. apply N.le_antisymm; apply L; intros x Hx; apply H; exact Hx.
Qed.

(** The answer to the next call after any history. *)
Lemma next_answer hist c : Forall (fun x => x < two64) hist -> c < two64 ->
  let '(rs, w) := checks new_window hist in
  let seen := accepted hist rs in
  (fst (check_and_update w c) = true <-> c <> 0 /\ ~ In c seen /\ highest seen < c + 64) /\
  (fst (check_and_update w c) = false -> snd (check_and_update w c) = w).
Proof.
  intros Hh Hc. destruct (checks new_window hist) as [rs w] eqn:E. cbv zeta.
  destruct (checks_refine _ _ _ _ _ represents_init Hh E) as (seen' & F & R).
  assert (Hs : forall x, In x seen' <-> In x (accepted hist rs)).
  { intros x. rewrite (filter_seen _ _ _ _ _ F). cbn [In]. tauto. }
  assert (Hacc : acceptable 64 seen' c <-> acceptable 64 (accepted hist rs) c).
  { unfold acceptable. rewrite (highest_ext _ _ Hs), Hs. tauto. }
  destruct (check_spec w seen' c R Hc) as [(Ha & w' & E1 & _)|(Ha & E1)]; rewrite E1; cbn [fst snd].
  - split; [|discriminate]. split; [|reflexivity]. intros _. apply Hacc, Ha.
  - split; [|reflexivity]. split; [discriminate|]. intros H. exfalso. apply Ha, Hacc, H.
Qed.

Lemma no_counter_twice hist rs w : Forall (fun x => x < two64) hist ->
  checks new_window hist = (rs, w) -> NoDup (accepted hist rs).
Proof.
  intros Hh E. destruct (checks_refine _ _ _ _ _ represents_init Hh E) as (seen' & F & _).
  destruct (filter_nodup _ _ _ _ _ F (NoDup_nil _)) as [H _]. exact H.
Qed.

Lemma accepted_sub cs rs x : In x (accepted cs rs) -> In x cs.
Proof.
  revert rs; induction cs as [|c cs IH]; intros [|r rs]; cbn [accepted]; try (intros []; fail).
  rewrite in_app_iff. intros [H|H].
  - destruct r; [|destruct H]. destruct H as [<-|[]]. left; reflexivity.
  - right. exact (IH rs H).
Qed.

(** In-window reorderings are accepted in full. *)
Lemma reorder_aux seen w cs : represents w seen ->
  Forall (fun c => 0 < c < two64) cs -> NoDup (cs ++ seen) ->
  (forall p c q, cs = p ++ c :: q -> highest (p ++ seen) < c + 64) ->
  fst (checks w cs) = repeat true (length cs).
Proof.
  revert seen w; induction cs as [|c cs IH]; intros seen w Hr Hc Hn Hw; [reflexivity|].
  inversion Hc as [|? ? H1 H2]; subst. cbn [app] in Hn. inversion Hn as [|? ? Hni Hn']; subst.
  cbn [checks]. destruct (check_spec w seen c Hr ltac:(lia)) as [(Ha & w1 & E1 & R1)|(Ha & E1)].
  - rewrite E1. specialize (IH (c :: seen) w1 R1 H2).
    assert (P : NoDup (cs ++ c :: seen)).
    { apply NoDup_Add with (a := c) (l := cs ++ seen); [apply Add_app|]. split; assumption. }
    specialize (IH P).
    assert (Hx : forall p0 c0 q, cs = p0 ++ c0 :: q -> highest (p0 ++ c :: seen) < c0 + 64).
    { intros p0 c0 q ->. specialize (Hw (c :: p0) c0 q eq_refl).
      rewrite (highest_ext _ ((c :: p0) ++ seen)); [exact Hw|].
      intros x. cbn [app In]. rewrite !in_app_iff. cbn [In]. tauto. }
    specialize (IH Hx). destruct (checks w1 cs) as [rs w2]; cbn [fst] in *. cbn [length repeat]. congruence.
  - exfalso. apply Ha. split; [lia|]. split.
    + intros Hin. apply Hni. apply in_or_app. right; exact Hin.
    + apply (Hw [] c cs eq_refl).
Qed.
Lemma reordering_accepted cs : Forall (fun c => 0 < c < two64) cs -> NoDup cs ->
  (forall p c q, cs = p ++ c :: q -> forall x, In x p -> x < c + 64) ->
  fst (checks new_window cs) = repeat true (length cs).
Proof.
  intros Hc Hn Hw. apply (reorder_aux [] new_window cs represents_init Hc).
  - rewrite app_nil_r. exact Hn.
  - intros p c q E. rewrite app_nil_r. specialize (Hw p c q E).
    assert (Hcc : 0 < c < two64).
    { rewrite Forall_forall in Hc. apply Hc. rewrite E. apply in_elt. }
    clear - Hw Hcc. induction p as [|x p IH]; [cbn; lia|]. rewrite highest_cons.
    specialize (IH (fun y Hy => Hw y (or_intror Hy))). specialize (Hw x (or_introl eq_refl)). lia.
Qed.

Fixpoint increasing (lo : N) (cs : list N) : Prop :=
  match cs with [] => True | c :: cs' => lo < c /\ increasing c cs' end.

Lemma increasing_lt lo cs : increasing lo cs -> forall x, In x cs -> lo < x.
Proof.
  revert lo; induction cs as [|c cs IH]; cbn [increasing In]; [tauto|].
  intros lo [H1 H2] x [<-|Hx]; [exact H1|]. specialize (IH _ H2 x Hx). lia.
Qed.
Lemma increasing_accepted cs : increasing 0 cs -> Forall (fun c => c < two64) cs ->
  fst (checks new_window cs) = repeat true (length cs).
Proof.
  intros Hi Hc. apply reordering_accepted.
  - rewrite Forall_forall in *. intros x Hx. split; [exact (increasing_lt _ _ Hi x Hx)|apply Hc, Hx].
  - clear Hc. revert Hi. generalize 0. induction cs as [|c cs IH]; intros lo Hi; [constructor|].
    destruct Hi as [H1 H2]. constructor; [|exact (IH _ H2)].
    intros Hin. pose proof (increasing_lt _ _ H2 _ Hin). lia.
  - intros p c q ->. clear Hc. revert Hi. generalize 0. induction p as [|y p IH]; intros lo Hi x; cbn [In app] in *; [tauto|].
    destruct Hi as [H1 H2]. intros [<-|Hx].
    + pose proof (increasing_lt _ _ H2 c (in_elt _ _ _)). lia.
    + exact (IH _ H2 x Hx).
Qed.

(** The window reaches 63 below the highest, not 64. *)
Lemma window_is_63 h : 64 < h -> h < two64 ->
  fst (checks new_window [h; h - 64]) = [true; false] /\
  fst (checks new_window [h; h - 63]) = [true; true].
Proof.
  intros H1 H2.
  assert (F : check_and_update new_window h = (true, {| w_highest := h; w_bitmap := 1 |})).
  { unfold check_and_update, new_window, replay_window_size; cbn [w_highest w_bitmap].
    destruct (N.eqb_spec h 0); [lia|]. destruct (N.ltb_spec 0 h); [|lia].
    rewrite N.sub_0_r. destruct (N.leb_spec 64 h); [|lia]. reflexivity. }
  cbn [checks]. rewrite F. cbn [checks]. unfold check_and_update, replay_window_size; cbn [w_highest w_bitmap].
  split.
  - destruct (N.eqb_spec (h - 64) 0); [lia|]. destruct (N.ltb_spec h (h - 64)); [lia|].
    replace (h - (h - 64)) with 64 by lia. reflexivity.
  - destruct (N.eqb_spec (h - 63) 0); [lia|]. destruct (N.ltb_spec h (h - 63)); [lia|].
    replace (h - (h - 63)) with 63 by lia. reflexivity.
Qed.
