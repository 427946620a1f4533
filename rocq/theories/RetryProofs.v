(** Lemmas for C174. *)
From Verif Require Import Bytes BytesProofs Parser ParserProofs Crypto Kdf Wire WireProofs WireSeq Replay Server ServerSeq Keys Client ClientSeq
  SpecClient ClientProofs Timed SpecTimed TimedProofs TimedClient TimedArrival StallProofs SpecRetry.
From Coq Require Import Lia.

Lemma dropN_le {A} n (l : list A) : lenN (dropN n l) <= lenN l.
Proof. pose proof (f_equal lenN (takeN_dropN n l)) as H. rewrite lenN_app in H. lia. Qed.
Lemma splitN {A} (l : list A) n : n <= lenN l -> exists a b, l = a ++ b /\ lenN a = n.
Proof.
  intros H. destruct (split_len l (N.to_nat n)) as (a & b & -> & L); [unfold lenN in H; lia|]. exists a, b. split; [reflexivity|]. unfold lenN. lia.
Qed.
Lemma latest_lt l d : l <> [] -> Forall (fun a => a < d) l -> latest l < d.
Proof.
  intros H F. destruct d as [|d]; [destruct l; [congruence|]; inversion F; lia|].
  enough (latest l <= N.pos d - 1) by lia. apply latest_le. revert F. apply Forall_impl. intros; lia.
Qed.
Lemma wait_in n inp t a b d : n <> 0 -> n <= lenN inp -> t_arr t = a ++ b -> lenN a = n -> Forall (fun a => a < d) a -> t_rd t = Some d -> t_now t < d ->
  exists t', t_wait n inp t = (None, t') /\ t_arr t' = b /\ t_rd t' = Some d /\ t_now t' < d.
Proof.
  intros Hn Hi Ha He F Hd Hl. unfold t_wait. destruct (N.eqb_spec n 0); [contradiction|]. unfold due.
  destruct (N.leb_spec n (lenN inp)); [|lia]. rewrite Ha, takeN_app, dropN_app by exact He. rewrite Hd.
  assert (latest a < d) by (apply latest_lt; [intros ->; cbn in He; lia|exact F]).
  destruct (N.ltb_spec (N.max (t_now t) (latest a)) d); [|lia]. eexists. split; [reflexivity|]. cbn. repeat split; [exact Hd|lia].
Qed.
Lemma wait_out n inp t e y arr d : n <= lenN inp -> t_arr t = e ++ y :: arr -> lenN e < n -> Forall (fun a => a < d) e ->
  t_rd t = Some d -> t_now t < d -> d <= y -> t_wait n inp t = (Some (lenN e), t_at t d (y :: arr)).
Proof.
  intros Hn Ha He Hf Hd Hl Hy. unfold t_wait. destruct (N.eqb_spec n 0); [lia|]. unfold due. destruct (N.leb_spec n (lenN inp)); [|lia].
  assert (In y (takeN n (t_arr t))) as Hi.
  { rewrite Ha, (proj1 (takeN_firstn _ _)), firstn_app. apply in_or_app. right.
    destruct (N.to_nat n - length e)%nat eqn:X; [unfold lenN in He; lia|left; reflexivity]. }
  apply latest_in in Hi. rewrite Hd. destruct (N.ltb_spec (N.max (t_now t) (latest (takeN n (t_arr t)))) d); [lia|].
  destruct (N.ltb_spec (t_now t) d); [|lia].
  assert (Er : early d (t_arr t) = lenN e).
  { rewrite Ha. clear - Hf Hy. induction Hf as [|a e Ha Hf IH].
    - cbn [app early]. destruct (N.ltb_spec y d); [lia|]. reflexivity.
    - cbn [app early]. destruct (N.ltb_spec a d); [|lia]. rewrite IH, lenN_cons. lia. }
  rewrite Er, N.min_l by lia. rewrite N.max_r by lia. rewrite Ha, dropN_app by reflexivity. reflexivity.
Qed.

(** [p] takes exactly [x] and gives [v], whatever follows. *)
Definition takes {A} (p : parser A) (x : bytes) (v : A) : Prop := forall rest, run p (x ++ rest) EndEOF = (inr v, rest).
Lemma takes_read {A} n (k : perr + bytes -> parser A) x v : takes (PRead n k) x v ->
  exists a b, x = a ++ b /\ lenN a = n /\ takes (k (inr a)) b v.
Proof.
  intros H. destruct (N.le_gt_cases n (lenN x)) as [L|L].
  - destruct (splitN x n L) as (a & b & -> & La). exists a, b. split; [reflexivity|]. split; [exact La|]. intros rest. specialize (H rest).
    cbn [run] in H. rewrite <- app_assoc, fl_read_app in H by exact La. exact H.
  - exfalso. destruct (splitN (repeat x00 (N.to_nat n)) (n - lenN x)) as (r & q & E & Lr); [unfold lenN; rewrite repeat_length; unfold lenN in L; lia|].
    specialize (H r). cbn [run] in H. rewrite <- (app_nil_r (x ++ r)), fl_read_app in H by (rewrite lenN_app; lia).
    destruct (run_suffix _ _ _ _ _ H) as (c & Hc). symmetry in Hc. apply app_eq_nil in Hc as [_ ->]. cbn in Lr. lia.
Qed.
Lemma takes_copy {A} n (k : bytes * option perr -> parser A) x v : takes (PCopy n k) x v ->
  exists a b, x = a ++ b /\ lenN a = n /\ takes (k (a, None)) b v.
Proof.
  intros H. destruct (N.le_gt_cases n (lenN x)) as [L|L].
  - destruct (splitN x n L) as (a & b & -> & La). exists a, b. split; [reflexivity|]. split; [exact La|]. intros rest. specialize (H rest).
    cbn [run] in H. rewrite <- app_assoc, fl_copy_app in H by exact La. exact H.
  - exfalso. destruct (splitN (repeat x00 (N.to_nat n)) (n - lenN x)) as (r & q & E & Lr); [unfold lenN; rewrite repeat_length; unfold lenN in L; lia|].
    specialize (H r). cbn [run] in H. rewrite <- (app_nil_r (x ++ r)), fl_copy_app in H by (rewrite lenN_app; lia).
    destruct (run_suffix _ _ _ _ _ H) as (c & Hc). symmetry in Hc. apply app_eq_nil in Hc as [_ ->]. cbn in Lr. lia.
Qed.

Section retry.
Variables (C : Crypto) (E : cenv) (delay : nat -> N) (dl : tio -> tio).
Hypothesis D0 : forall i, delay i = 0.
Notation tcrun := (tcrun C E delay dl).

Lemma takes_ret {A} (a : A) x v : takes (PRet a) x v -> x = [] /\ a = v.
Proof. intros H. specialize (H []). cbn in H. rewrite app_nil_r in H. inversion H. split; congruence. Qed.
Lemma takes_fail {A} e x (v : A) : takes (PFail e) x v -> False.
Proof. intros H. specialize (H []). discriminate. Qed.

Lemma parse_in_time {A B} (p : parser A) (f : perr + A -> cprog B) v : forall x t s e arr rest d,
  takes p x v -> c_in s = x ++ rest -> t_arr t = e ++ arr -> lenN e = lenN x -> Forall (fun a => a < d) e -> t_rd t = Some d -> t_now t < d ->
  exists t1, tcrun (cbind (clift p) f) t s = tcrun (f (inr v)) t1 (c_set_in s rest) /\ t_arr t1 = arr /\ t_rd t1 = Some d /\ t_now t1 < d.
Proof.
  induction p as [a|er|n k IH|n k IH|n k IH]; intros x t s e arr rest d H Hi Ha He F Hd Hl.
  - apply takes_ret in H as [-> ->]. apply lenN_0 in He. subst e. exists t. cbn [clift cbind app] in *. rewrite <- Hi. destruct s. repeat split; assumption.
  - apply takes_fail in H as [].
  - apply takes_read in H as (a & b & -> & La & H). rewrite <- app_assoc in Hi. rewrite lenN_app in He.
    destruct (splitN e n) as (e1 & e2 & -> & Le); [lia|]. rewrite <- app_assoc in Ha. rewrite lenN_app in He. apply Forall_app in F as [F1 F2].
    cbn [clift cbind Timed.tcrun tcexec]. destruct (N.eqb_spec n 0) as [->|Hn].
    + apply lenN_0 in La. apply lenN_0 in Le. subst a e1. cbn [app] in *. unfold t_wait. rewrite N.eqb_refl. cbn [cexec].
      unfold fl_read. destruct (N.leb_spec 0 (lenN (c_in s))); [|lia]. 
      assert (Z : forall l : bytes, takeN 0 l = [] /\ dropN 0 l = l) by (intros l; rewrite (proj1 (takeN_firstn 0 l)), (proj2 (takeN_firstn 0 l)); split; reflexivity).
      rewrite (proj1 (Z _)), (proj2 (Z _)). cbn [fst snd].
      destruct (IH (inr []) b (t_pass delay t) (c_set_in s (c_in s)) e2 arr rest d H Hi Ha ltac:(unfold lenN in *; cbn [length] in *; lia) F2 Hd ltac:(cbn; rewrite D0; lia)) as (t1 & X & Y).
      exists t1. rewrite X. split; [reflexivity|exact Y].
    + destruct (wait_in n (c_in s) t e1 (e2 ++ arr) d Hn ltac:(rewrite Hi, lenN_app; lia) Ha Le F1 Hd Hl) as (t' & -> & A1 & A2 & A3).
      cbn [cexec]. rewrite Hi, fl_read_app by exact La. cbn [fst snd].
      destruct (IH (inr a) b (t_pass delay t') (c_set_in s (b ++ rest)) e2 arr rest d H eq_refl A1 ltac:(lia) F2 A2 ltac:(cbn; rewrite D0; lia)) as (t1 & X & Y).
      exists t1. rewrite X. split; [reflexivity|exact Y].
  - apply takes_copy in H as (a & b & -> & La & H). rewrite <- app_assoc in Hi. rewrite lenN_app in He.
    destruct (splitN e n) as (e1 & e2 & -> & Le); [lia|]. rewrite <- app_assoc in Ha. rewrite lenN_app in He. apply Forall_app in F as [F1 F2].
    cbn [clift cbind Timed.tcrun tcexec]. destruct (N.eqb_spec n 0) as [->|Hn].
    + apply lenN_0 in La. apply lenN_0 in Le. subst a e1. cbn [app] in *. unfold t_wait. rewrite N.eqb_refl. cbn [cexec].
      unfold fl_copy. destruct (N.leb_spec 0 (lenN (c_in s))); [|lia].
      assert (Z : forall l : bytes, takeN 0 l = [] /\ dropN 0 l = l) by (intros l; rewrite (proj1 (takeN_firstn 0 l)), (proj2 (takeN_firstn 0 l)); split; reflexivity).
      rewrite (proj1 (Z _)), (proj2 (Z _)). cbn [fst snd].
      destruct (IH ([], None) b (t_pass delay t) (c_set_in s (c_in s)) e2 arr rest d H Hi Ha ltac:(unfold lenN in *; cbn [length] in *; lia) F2 Hd ltac:(cbn; rewrite D0; lia)) as (t1 & X & Y).
      exists t1. rewrite X. split; [reflexivity|exact Y].
    + destruct (wait_in n (c_in s) t e1 (e2 ++ arr) d Hn ltac:(rewrite Hi, lenN_app; lia) Ha Le F1 Hd Hl) as (t' & -> & A1 & A2 & A3).
      cbn [cexec]. rewrite Hi, fl_copy_app by exact La. cbn [fst snd].
      destruct (IH (a, None) b (t_pass delay t') (c_set_in s (b ++ rest)) e2 arr rest d H eq_refl A1 ltac:(lia) F2 A2 ltac:(cbn; rewrite D0; lia)) as (t1 & X & Y).
      exists t1. rewrite X. split; [reflexivity|exact Y].
  - cbn [clift cbind Timed.tcrun tcexec cexec fst snd].
    apply (IH x (t_pass delay t) s e arr rest d); try assumption. cbn. rewrite D0. lia.
Qed.

Lemma parse_cut {A B} (p : parser A) (f : perr + A -> cprog B) v : strict p -> forall x t s e y arr rest d,
  takes p x v -> c_in s = x ++ rest -> t_arr t = e ++ y :: arr -> lenN e < lenN x -> Forall (fun a => a < d) e -> d <= y -> t_rd t = Some d -> t_now t < d ->
  exists t1, tcrun (cbind (clift p) f) t s = tcrun (f (inl EIO)) t1 (c_set_in s (dropN (lenN e) x ++ rest)) /\
    t_arr t1 = y :: arr /\ t_rd t1 = Some d /\ t_now t1 = d.
Proof.
  assert (Dr : forall n (a b : bytes), n <= lenN a -> dropN n (a ++ b) = dropN n a ++ b).
  { intros n a b Ln. destruct (splitN a n Ln) as (u & w & -> & Lu). rewrite <- app_assoc, !dropN_app by exact Lu. reflexivity. }
  assert (Dq : forall (a b : bytes) (e1 e2 : list N), lenN e1 = lenN a -> dropN (lenN (e1 ++ e2)) (a ++ b) = dropN (lenN e2) b).
  { intros a b e1 e2 L. rewrite (proj2 (takeN_firstn _ _)), (proj2 (takeN_firstn _ b)). rewrite skipn_app. rewrite skipn_all2 by (rewrite lenN_app; unfold lenN in *; lia). cbn [app].
    f_equal. rewrite lenN_app. unfold lenN in *. lia. }
  induction p as [a|er|n k IH|n k IH|n k IH]; intros Sp x t s e y arr rest d H Hi Ha He F Hy Hd Hl.
  - apply takes_ret in H as [-> ->]. cbn in He. lia.
  - apply takes_fail in H as [].
  - destruct Sp as [S1 S2]. apply takes_read in H as (a & b & -> & La & H). rewrite <- app_assoc in Hi. rewrite lenN_app in He.
    cbn [clift cbind Timed.tcrun tcexec]. destruct (N.lt_ge_cases (lenN e) n) as [Lt|Ge].
    + rewrite (wait_out n (c_in s) t e y arr d) by (try assumption; rewrite Hi, lenN_app; lia). rewrite S1. cbn [clift cbind].
      eexists. split; [rewrite Hi, Dr by lia; rewrite (Dr _ a b) by lia; rewrite <- app_assoc; reflexivity|]. cbn. rewrite D0. repeat split; [exact Hd|lia].
    + destruct (splitN e n Ge) as (e1 & e2 & -> & Le). rewrite <- app_assoc in Ha. rewrite lenN_app in He. apply Forall_app in F as [F1 F2].
      rewrite (Dq a b e1 e2) by congruence.
      destruct (N.eqb_spec n 0) as [->|Hn].
      * apply lenN_0 in La. apply lenN_0 in Le. subst a e1. cbn [app] in *. unfold t_wait. rewrite N.eqb_refl. cbn [cexec].
        unfold fl_read. destruct (N.leb_spec 0 (lenN (c_in s))); [|lia].
        assert (Z : forall l : bytes, takeN 0 l = [] /\ dropN 0 l = l) by (intros l; rewrite (proj1 (takeN_firstn 0 l)), (proj2 (takeN_firstn 0 l)); split; reflexivity).
        rewrite (proj1 (Z _)), (proj2 (Z _)). cbn [fst snd].
        destruct (IH (inr []) (S2 _) b (t_pass delay t) (c_set_in s (c_in s)) e2 y arr rest d H Hi Ha ltac:(unfold lenN in *; cbn [length] in *; lia) F2 Hy Hd ltac:(cbn; rewrite D0; lia)) as (t1 & X & Y).
        exists t1. rewrite X. split; [reflexivity|exact Y].
      * destruct (wait_in n (c_in s) t e1 (e2 ++ y :: arr) d Hn ltac:(rewrite Hi, lenN_app; lia) Ha Le F1 Hd Hl) as (t' & -> & A1 & A2 & A3).
        cbn [cexec]. rewrite Hi, fl_read_app by exact La. cbn [fst snd].
        destruct (IH (inr a) (S2 _) b (t_pass delay t') (c_set_in s (b ++ rest)) e2 y arr rest d H eq_refl A1 ltac:(lia) F2 Hy A2 ltac:(cbn; rewrite D0; lia)) as (t1 & X & Y).
        exists t1. rewrite X. split; [reflexivity|exact Y].
  - destruct Sp as [S1 S2]. apply takes_copy in H as (a & b & -> & La & H). rewrite <- app_assoc in Hi. rewrite lenN_app in He.
    cbn [clift cbind Timed.tcrun tcexec]. destruct (N.lt_ge_cases (lenN e) n) as [Lt|Ge].
    + rewrite (wait_out n (c_in s) t e y arr d) by (try assumption; rewrite Hi, lenN_app; lia). rewrite S1. cbn [clift cbind].
      eexists. split; [rewrite Hi, Dr by lia; rewrite (Dr _ a b) by lia; rewrite <- app_assoc; reflexivity|]. cbn. rewrite D0. repeat split; [exact Hd|lia].
    + destruct (splitN e n Ge) as (e1 & e2 & -> & Le). rewrite <- app_assoc in Ha. rewrite lenN_app in He. apply Forall_app in F as [F1 F2].
      rewrite (Dq a b e1 e2) by congruence.
      destruct (N.eqb_spec n 0) as [->|Hn].
      * apply lenN_0 in La. apply lenN_0 in Le. subst a e1. cbn [app] in *. unfold t_wait. rewrite N.eqb_refl. cbn [cexec].
        unfold fl_copy. destruct (N.leb_spec 0 (lenN (c_in s))); [|lia].
        assert (Z : forall l : bytes, takeN 0 l = [] /\ dropN 0 l = l) by (intros l; rewrite (proj1 (takeN_firstn 0 l)), (proj2 (takeN_firstn 0 l)); split; reflexivity).
        rewrite (proj1 (Z _)), (proj2 (Z _)). cbn [fst snd].
        destruct (IH ([], None) (S2 _) b (t_pass delay t) (c_set_in s (c_in s)) e2 y arr rest d H Hi Ha ltac:(unfold lenN in *; cbn [length] in *; lia) F2 Hy Hd ltac:(cbn; rewrite D0; lia)) as (t1 & X & Y).
        exists t1. rewrite X. split; [reflexivity|exact Y].
      * destruct (wait_in n (c_in s) t e1 (e2 ++ y :: arr) d Hn ltac:(rewrite Hi, lenN_app; lia) Ha Le F1 Hd Hl) as (t' & -> & A1 & A2 & A3).
        cbn [cexec]. rewrite Hi, fl_copy_app by exact La. cbn [fst snd].
        destruct (IH (a, None) (S2 _) b (t_pass delay t') (c_set_in s (b ++ rest)) e2 y arr rest d H eq_refl A1 ltac:(lia) F2 Hy A2 ltac:(cbn; rewrite D0; lia)) as (t1 & X & Y).
        exists t1. rewrite X. split; [reflexivity|exact Y].
  - cbn [clift cbind Timed.tcrun tcexec cexec fst snd].
    apply (IH Sp x (t_pass delay t) s e y arr rest d); try assumption. cbn. rewrite D0. lia.
Qed.
End retry.

Lemma takes_resp_common rc : resp_common_ok rc -> takes parse_resp_common (enc_resp_common rc) rc.
Proof. intros H rest. apply resp_common_rt, H. Qed.
Lemma takes_process m : process_resp_ok m ->
  takes (parse_process_resp (ps_common m)) (be_enc 8 (ps_counter m) ++ be_enc 8 (ps_size m) ++ ps_msg m) m.
Proof. intros H rest. rewrite <- !app_assoc. apply process_resp_rt_body, H. Qed.
Lemma takes_error m : error_resp_ok m ->
  takes (parse_error_resp (er_common m)) (be_enc 4 (er_code m mod two32) ++ be_enc 8 (lenN (er_msg m) mod two64) ++ er_msg m) m.
Proof. intros H rest. rewrite <- !app_assoc. apply error_resp_rt_body, H. Qed.

Lemma takes_end {A} (p : parser A) v : forall x, takes p x v -> forall rest e, run p (x ++ rest) e = (inr v, rest).
Proof.
  induction p as [a|er|n k IH|n k IH|n k IH]; intros x H rest e.
  - apply takes_ret in H as [-> ->]. reflexivity.
  - apply takes_fail in H as [].
  - apply takes_read in H as (a & b & -> & La & H). cbn [run]. rewrite <- app_assoc, fl_read_app by exact La. apply IH, H.
  - apply takes_copy in H as (a & b & -> & La & H). cbn [run]. rewrite <- app_assoc, fl_copy_app by exact La. apply IH, H.
  - cbn [run]. apply IH, H.
Qed.

Section reads.
Variables (C : Crypto) (E : cenv) (delay : nat -> N) (rto wto : N) (reply : bool) (ses : csession).
Hypothesis D0 : forall i, delay i = 0.
Hypothesis R0 : 0 < rto.
Hypothesis W : c_works E.

Lemma read_start n t s : exists t1, timed_read C E delay rto wto reply ses n t s =
  tcrun C E delay (t_set_rd rto) (read_rest C ses n true) t1 (c_tick s) /\
  t_now t1 = t_now t /\ t_arr t1 = t_arr t /\ t_rd t1 = Some (t_now t + rto).
Proof.
  unfold timed_read. rewrite read_split. cbn [with_timeouts co_rto]. destruct (N.ltb_spec 0 rto) as [_|]; [|lia].
  cbn [cdo cbind tcrun tcexec cexec fst snd]. rewrite (proj2 W). eexists. split; [reflexivity|].
  unfold t_set_rd. destruct (N.ltb_spec 0 rto) as [_|]; [|lia]. cbn. rewrite D0, N.add_0_r. repeat split.
Qed.

(** A response to Read as its two parts, and what parses the second. *)
Lemma response_parts R : (exists c m, R = RsProcess c m) \/ (exists c m, R = RsError c m) -> response_ok R ->
  exists rc x2, enc_response R = enc_resp_common rc ++ x2 /\ resp_common_ok rc /\
    ((rs_success rc = true /\ (forall c m, R <> RsError c m) /\ exists v, takes (parse_process_resp rc) x2 v) \/
     (rs_success rc = false /\ exists v, takes (parse_error_resp rc) x2 v /\ (forall c m, R = RsError c m -> er_code v = c /\ er_msg v = m))).
Proof.
  intros [(c & m & ->)|(c & m & ->)] Ok.
  - set (v := new_process_response c m). exists (ps_common v), (be_enc 8 (ps_counter v) ++ be_enc 8 (ps_size v) ++ ps_msg v).
    assert (Hv : process_resp_ok v) by (constructor; cbn; try apply Ok; reflexivity).
    split; [reflexivity|]. split; [apply Hv|]. left. split; [reflexivity|]. split; [discriminate|]. exists v. apply takes_process, Hv.
  - set (v := new_error_response c m). exists (er_common v), (be_enc 4 (er_code v mod two32) ++ be_enc 8 (lenN (er_msg v) mod two64) ++ er_msg v).
    assert (Hv : error_resp_ok v) by (constructor; cbn; try apply Ok; reflexivity).
    split; [reflexivity|]. split; [apply Hv|]. right. split; [reflexivity|]. exists v. split; [apply takes_error, Hv|].
    intros c' m' Q. inversion Q; subst. split; reflexivity.
Qed.
Lemma common_len rc : lenN (enc_resp_common rc) = 1.
Proof. unfold enc_resp_common. destruct (rs_success rc); reflexivity. Qed.

Lemma read_cut n t s R rest e y arr : c_buf s = [] -> (exists c m, R = RsProcess c m) \/ (exists c m, R = RsError c m) -> response_ok R ->
  c_in s = enc_response R ++ rest -> t_arr t = e ++ y :: arr -> lenN e < lenN (enc_response R) ->
  Forall (fun a => a < t_now t + rto) e -> t_now t + rto <= y ->
  exists t1, timed_read C E delay rto wto reply ses n t s = (reads_timeout, (t1, c_set_in (c_tick s) (dropN (lenN e) (enc_response R) ++ rest))) /\
    t_now t1 = t_now t + rto /\ t_arr t1 = y :: arr.
Proof.
  intros Hb HR Ok Hi Ha He F Hy. destruct (read_start n t s) as (t1 & -> & N1 & A1 & R1). rewrite <- A1 in Ha.
  destruct (response_parts R HR Ok) as (rc & x2 & Ex & Hrc & Hv). rewrite Ex in *. rewrite <- app_assoc in Hi.
  unfold read_rest. cbn [negb cdo cbind tcrun tcexec cexec fst snd c_tick c_buf]. rewrite Hb. change (0 <? lenN []) with false. cbv iota.
  set (t2 := t_pass delay t1). assert (N2 : t_now t2 < t_now t + rto) by (cbn; rewrite D0; lia).
  pose proof (common_len rc) as L1. rewrite lenN_app, L1 in He.
  destruct e as [|e1 e2].
  - match goal with |- context [tcrun _ _ _ _ (cbind _ ?f) _ _] => destruct (parse_cut C E delay (t_set_rd rto) D0 parse_resp_common f rc strict_resp_common (enc_resp_common rc) t2 (c_tick s) [] y arr
      (x2 ++ rest) (t_now t + rto) (takes_resp_common rc Hrc) Hi Ha ltac:(rewrite L1; reflexivity) F Hy R1 N2) as (t3 & X & X1 & X2 & X3) end.
    rewrite X. cbn [tcrun]. exists t3. split; [|split; assumption].
    change (dropN (lenN []) ?l) with (dropN 0 l). rewrite !(proj2 (takeN_firstn 0 _)). cbn [N.to_nat skipn]. rewrite <- app_assoc. reflexivity.
  - inversion F as [|? ? F1 F2]; subst. rewrite lenN_cons in He.
    match goal with |- context [tcrun _ _ _ _ (cbind _ ?f) _ _] => destruct (parse_in_time C E delay (t_set_rd rto) D0 parse_resp_common f rc (enc_resp_common rc) t2 (c_tick s) [e1] (e2 ++ y :: arr)
      (x2 ++ rest) (t_now t + rto) (takes_resp_common rc Hrc) Hi Ha ltac:(rewrite L1; reflexivity) ltac:(constructor; auto) R1 N2) as (t3 & X & X1 & X2 & X3) end.
    rewrite X. clear X.
    assert (Dd : dropN (lenN (e1 :: e2)) (enc_resp_common rc ++ x2) = dropN (lenN e2) x2).
    { rewrite lenN_cons, !(proj2 (takeN_firstn _ _)), skipn_app, skipn_all2 by (unfold lenN in L1; lia). cbn [app]. f_equal. unfold lenN in *. lia. }
    rewrite Dd. destruct Hv as [(Hs & Nr & v & Hv)|(Hs & v & Hv & _)]; rewrite Hs; cbn [negb].
    + match goal with |- context [tcrun _ _ _ _ (cbind _ ?f) _ _] =>
        destruct (parse_cut C E delay (t_set_rd rto) D0 (parse_process_resp rc) f v (strict_process_resp rc) x2 t3 (c_set_in (c_tick s) (x2 ++ rest)) e2 y arr
          rest (t_now t + rto) Hv eq_refl X1 ltac:(lia) F2 Hy X2 X3) as (t4 & X & Y1 & Y2 & Y3) end.
      rewrite X. cbn [tcrun]. exists t4. split; [reflexivity|]. split; assumption.
    + match goal with |- context [tcrun _ _ _ _ (cbind _ ?f) _ _] =>
        destruct (parse_cut C E delay (t_set_rd rto) D0 (parse_error_resp rc) f v (strict_error_resp rc) x2 t3 (c_set_in (c_tick s) (x2 ++ rest)) e2 y arr
          rest (t_now t + rto) Hv eq_refl X1 ltac:(lia) F2 Hy X2 X3) as (t4 & X & Y1 & Y2 & Y3) end.
      rewrite X. cbn [tcrun]. exists t4. split; [reflexivity|]. split; assumption.
Qed.

Lemma still_arr p : stillp p -> forall t s, t_arr (fst (snd (tcrun C E delay (t_set_rd rto) p t s))) = t_arr t.
Proof.
  induction p as [a| |A e k IH]; intros H t s; [reflexivity|reflexivity|].
  destruct e; try contradiction; cbn [tcrun tcexec];
    match goal with |- context [cexec C E ?e s] => destruct (cexec C E e s) as [r1 s1] end; cbn [fst snd]; change (t_arr t) with (t_arr (t_pass delay t)); apply IH, H.
Qed.
Lemma read_whole n t s R rest e arr : c_buf s = [] -> (exists c m, R = RsProcess c m) \/ (exists c m, R = RsError c m) -> response_ok R ->
  c_in s = enc_response R ++ rest -> t_arr t = e ++ arr -> lenN e = lenN (enc_response R) ->
  Forall (fun a => a < t_now t + rto) e ->
  let '(r, (t', s')) := timed_read C E delay rto wto reply ses n t s in
  (r, s') = crun C E (client_read C (with_timeouts rto wto reply) ses n) s /\ t_arr t' = arr /\ (forall c m, R = RsError c m -> r = Some (RdErr (RdRemote c m))).
Proof.
  intros Hb HR Ok Hi Ha He F. destruct (read_start n t s) as (t1 & -> & N1 & A1 & R1). rewrite <- A1 in Ha.
  destruct (response_parts R HR Ok) as (rc & x2 & Ex & Hrc & Hv). rewrite Ex in *. rewrite <- app_assoc in Hi.
  rewrite read_split. cbn [with_timeouts co_rto]. destruct (N.ltb_spec 0 rto) as [_|]; [|lia]. cbn [cdo cbind crun cexec]. rewrite (proj2 W).
  unfold read_rest. cbn [negb cdo cbind crun tcrun tcexec cexec fst snd c_tick c_buf]. rewrite Hb. change (0 <? lenN []) with false. cbv iota.
  set (t2 := t_pass delay t1). assert (N2 : t_now t2 < t_now t + rto) by (cbn; rewrite D0; lia).
  pose proof (common_len rc) as L1. rewrite lenN_app, L1 in He.
  destruct e as [|e1 e2]; [cbn in He; lia|].
  inversion F as [|? ? F1 F2]; subst. rewrite lenN_cons in He.
  match goal with |- context [tcrun _ _ _ _ (cbind _ ?f) _ _] =>
    destruct (parse_in_time C E delay (t_set_rd rto) D0 parse_resp_common f rc (enc_resp_common rc) t2 (c_tick s) [e1] (e2 ++ arr)
      (x2 ++ rest) (t_now t + rto) (takes_resp_common rc Hrc) Hi Ha ltac:(rewrite L1; reflexivity) ltac:(constructor; auto) R1 N2) as (t3 & X & X1 & X2 & X3) end.
  rewrite X. clear X. rewrite crun_bind, crun_lift. change (c_in (c_tick s)) with (c_in s). rewrite Hi.
  rewrite (resp_common_rt rc (x2 ++ rest) (ce_end E) Hrc). cbn [fst snd].
  assert (Tk : forall A (p : parser A) v, takes p x2 v -> run p (x2 ++ rest) (ce_end E) = (inr v, rest)) by (intros A p v H; apply takes_end, H).
  destruct Hv as [(Hs & Nr & v & Hv)|(Hs & v & Hv & Hr)]; rewrite Hs; cbn [negb].
  - match goal with |- context [tcrun _ _ _ _ (cbind _ ?f) _ _] =>
      destruct (parse_in_time C E delay (t_set_rd rto) D0 (parse_process_resp rc) f v x2 t3 (c_set_in (c_tick s) (x2 ++ rest)) e2 arr
        rest (t_now t + rto) Hv eq_refl X1 ltac:(lia) F2 X2 X3) as (t4 & X & Y1 & Y2 & Y3) end.
    rewrite X. clear X. rewrite crun_bind, crun_lift. change (c_in (c_set_in _ ?i)) with i. rewrite (Tk _ _ _ Hv). cbn [fst snd].
    match goal with |- context [tcrun C E delay (t_set_rd rto) ?p t4 ?s4] =>
      assert (Sp : stillp p); [|pose proof (still_same C E delay (t_set_rd rto) p Sp t4 s4) as X; pose proof (still_arr p Sp t4 s4) as Z; destruct (tcrun C E delay (t_set_rd rto) p t4 s4) as [r [t' s']]] end.
    { cbn [cdo cbind stillp]. intros last. destruct (negb _); [exact I|]. destruct (client_gcm C (cs_secret ses)) as [key|]; [|exact I].
      destruct (gcm_open _ _ _ _) as [m|]; [|exact I]. cbn [cdo cbind stillp]. intros b _ b2.
      unfold read_buffered. destruct (buffer_read b2 n) as [[dd r2]|]; [|exact I]. cbn. intros. exact I. }
    split; [exact X|]. split; [cbn [fst snd] in Z; rewrite Z; exact Y1|]. intros c m Q. exfalso. exact (Nr c m Q).
  - match goal with |- context [tcrun _ _ _ _ (cbind _ ?f) _ _] =>
      destruct (parse_in_time C E delay (t_set_rd rto) D0 (parse_error_resp rc) f v x2 t3 (c_set_in (c_tick s) (x2 ++ rest)) e2 arr
        rest (t_now t + rto) Hv eq_refl X1 ltac:(lia) F2 X2 X3) as (t4 & X & Y1 & Y2 & Y3) end.
    rewrite X. clear X. rewrite crun_bind, crun_lift. change (c_in (c_set_in _ ?i)) with i. rewrite (Tk _ _ _ Hv). cbn [fst snd tcrun crun].
    split; [reflexivity|]. split; [exact Y1|]. intros c m Q. destruct (Hr c m Q) as [-> ->]. reflexivity.
Qed.

(** Nothing arrives for a while: as many Reads time out, the next gives the reply. *)
Lemma patient_reads (L : CryptoLaws C) key m ns : client_gcm C (cs_secret ses) = Some key -> m <> [] -> lenN m + 16 <= 2 ^ 30 ->
  forall n t s rest l arr, c_buf s = [] -> c_last s < 2 ^ 64 ->
  c_in s = enc_response (RsProcess (c_last s) (gcm_seal C key (x01 :: repeat x00 3 ++ be_enc 8 (c_last s)) m)) ++ rest ->
  t_arr t = l ++ arr -> length l = (33 + length m)%nat ->
  Forall (fun a => t_now t + lenN ns * rto <= a < t_now t + lenN ns * rto + rto) l ->
  exists t' s', timed_reads C E delay rto wto reply ses (ns ++ [n]) t s =
      (map (fun _ => reads_timeout) ns ++ [Some (RdOk (takeN n m) (lenN m <=? n))], (t', s')) /\
    c_in s' = rest /\ c_buf s' = dropN n m /\ t_arr t' = arr.
Proof.
  intros K Hm Lm. induction ns as [|n0 ns IH]; intros n t s rest l arr Hb Hl Hi Ha He F;
    set (ct := gcm_seal C key (x01 :: repeat x00 3 ++ be_enc 8 (c_last s)) m) in *;
    assert (Lc : lenN ct = lenN m + 16) by apply (gcm_seal_len C L);
    assert (Ok : response_ok (RsProcess (c_last s) ct)) by (split; [exact Hl|rewrite Lc; exact Lm]);
    assert (Len : lenN (enc_response (RsProcess (c_last s) ct)) = lenN l)
      by (cbn [enc_response]; unfold enc_process_resp; rewrite !lenN_app, common_len, !be_enc_lenN; cbn [new_process_response ps_msg]; rewrite Lc; unfold lenN; rewrite He; lia).
  - cbn [app timed_reads map].
    pose proof (read_whole n t s (RsProcess (c_last s) ct) rest l arr Hb ltac:(left; do 2 eexists; reflexivity) Ok Hi Ha (eq_sym Len)) as X.
    destruct (timed_read C E delay rto wto reply ses n t s) as [r [t1 s1]].
    destruct X as (X & Y & _); [revert F; apply Forall_impl; intros a Q; change (lenN []) with 0 in Q; lia|].
    destruct (read_fresh_run C E (with_timeouts rto wto reply) ses n s (enc_response (RsProcess (c_last s) ct)) rest (c_last s) ct key W Hb Hi) as (r0 & s0 & Z & Z1 & _ & Z2).
    { exists x80. split; [reflexivity|]. split; [vm_compute; discriminate|]. exact Ok. }
    { exact K. }
    rewrite N.eqb_refl in Z2. rewrite Z in X. injection X as -> ->.
    unfold ct in Z2. change (x01 :: repeat x00 3 ++ be_enc 8 (c_last s)) with (gcm_nonce dir_s2c (c_last s)) in Z2. rewrite (gcm_open_seal _ L) in Z2. destruct m as [|m0 m]; [congruence|].
    destruct Z2 as [-> Z2]. do 2 eexists. split; [reflexivity|]. repeat split; assumption.
  - destruct l as [|y l]; [cbn in He; lia|].
    assert (Fy : t_now t + lenN (n0 :: ns) * rto <= y) by (inversion F; lia). rewrite lenN_cons in Fy, F.
    destruct (read_cut n0 t s (RsProcess (c_last s) ct) rest [] y (l ++ arr) Hb ltac:(left; do 2 eexists; reflexivity) Ok Hi Ha ltac:(rewrite Len, lenN_cons; cbn; lia) ltac:(constructor) ltac:(nia))
      as (t1 & X & N1 & A1).
    cbn [app timed_reads map]. rewrite X.
    set (s1 := c_set_in (c_tick s) (dropN (lenN []) (enc_response (RsProcess (c_last s) ct)) ++ rest)) in *.
    destruct (IH n t1 s1 rest (y :: l) arr) as (t' & s' & -> & Z); [exact Hb|exact Hl| |exact A1|exact He| |].
    + change (lenN []) with 0. unfold s1. cbn [c_in c_set_in c_last c_tick]. change (lenN []) with 0. rewrite (proj2 (takeN_firstn 0 _)). reflexivity.
    + revert F. apply Forall_impl. intros a Q. rewrite N1. nia.
    + do 2 eexists. split; [reflexivity|exact Z].
Qed.

(** An octet string inside the ciphertext is read as a response after a timeout. *)
Lemma retry_reinterpreted n n2 t s ctr a code msg b rest e l1 l2 : c_buf s = [] -> ctr < 2 ^ 64 -> code < 2 ^ 32 ->
  lenN (a ++ enc_response (RsError code msg) ++ b) <= 2 ^ 30 ->
  c_in s = enc_response (RsProcess ctr (a ++ enc_response (RsError code msg) ++ b)) ++ rest ->
  t_arr t = e ++ l1 ++ l2 -> length e = (17 + length a)%nat -> length l1 = length (enc_response (RsError code msg)) ->
  Forall (fun x => x < t_now t + rto) e -> Forall (fun x => t_now t + rto <= x < t_now t + rto + rto) l1 ->
  fst (timed_reads C E delay rto wto reply ses [n; n2] t s) = [reads_timeout; Some (RdErr (RdRemote code msg))].
Proof.
  intros Hb Hc Hco Lm Hi Ha Le Ll Fe Fl. set (R2 := RsError code msg) in *. set (ct := a ++ enc_response R2 ++ b) in *.
  pose proof (enc_response_ne R2) as Ne.
  assert (Ok2 : response_ok R2).
  { split; [exact Hco|]. unfold ct in Lm. rewrite !lenN_app in Lm. cbn [R2 enc_response] in Lm. unfold enc_error_resp in Lm. rewrite !lenN_app in Lm. cbn [new_error_response er_msg] in Lm.
    unfold two63. change (2 ^ 30) with 1073741824 in Lm. lia. }
  destruct l1 as [|y l1]; [cbn in Ll; destruct (enc_response R2); [congruence|discriminate]|].
  assert (Fy : t_now t + rto <= y) by (inversion Fl; lia).
  set (hd := enc_resp_common (ps_common (new_process_response ctr ct)) ++ be_enc 8 ctr ++ be_enc 8 (lenN ct)).
  assert (Ehd : enc_response (RsProcess ctr ct) = (hd ++ a) ++ enc_response R2 ++ b).
  { unfold hd. rewrite <- !app_assoc. reflexivity. }
  assert (Lhd : lenN (hd ++ a) = lenN e).
  { unfold hd. rewrite !lenN_app, common_len, !be_enc_lenN. unfold lenN. rewrite Le. lia. }
  destruct (read_cut n t s (RsProcess ctr ct) rest e y (l1 ++ l2) Hb ltac:(left; do 2 eexists; reflexivity) (conj Hc Lm) Hi Ha) as (t1 & X & N1 & A1); [|exact Fe|exact Fy|].
  { rewrite Ehd, lenN_app, Lhd, lenN_app. destruct (enc_response R2); [congruence|]. rewrite lenN_cons. lia. }
  cbn [timed_reads]. rewrite X. rewrite Ehd, dropN_app by exact Lhd.
  set (s1 := c_set_in (c_tick s) _).
  pose proof (read_whole n2 t1 s1 R2 (b ++ rest) (y :: l1) l2 Hb ltac:(right; do 2 eexists; reflexivity) Ok2) as Y.
  destruct (timed_read C E delay rto wto reply ses n2 t1 s1) as [r [t2 s2]]. cbn [fst].
  destruct Y as (_ & _ & Y); [unfold s1; cbn; rewrite <- app_assoc; reflexivity|exact A1|unfold lenN; rewrite Ll; reflexivity| |].
  { rewrite N1. revert Fl. apply Forall_impl. intros; lia. }
  rewrite (Y code msg eq_refl). reflexivity.
Qed.
End reads.
