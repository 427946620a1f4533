From Coq Require Import String Lia.
From Verif Require Import Bytes BytesProofs Kdf Registry ChatUser SpecChat.

Lemma one (b : byte) (c : byte) : ((b2n b =? b2n c) = true <-> b = c).
Proof.
  rewrite N.eqb_eq. split; [|intros ->; reflexivity]. intros H. apply (f_equal n2b) in H. rewrite !n2b_b2n in H. exact H.
Qed.

(** ** Cutting *)
Lemma without_cons c b s : without [c] (b :: s) <-> b <> c /\ without [c] s.
Proof.
  unfold without. split.
  - intros H. split; [intros ->; exact (H [] s eq_refl)|]. intros x y ->. exact (H (b :: x) y eq_refl).
  - intros [H1 H2] [|x a] y E; cbn in E; injection E as -> E; [apply H1; reflexivity|apply (H2 _ _ E)].
Qed.
Lemma without_nil c : without [c] [].
Proof. intros [|x a] b E; discriminate E. Qed.
Lemma without_app c a b : without [c] (a ++ b) <-> without [c] a /\ without [c] b.
Proof.
  induction a as [|x a IH]; cbn [app].
  - split; [intros H; split; [apply without_nil|exact H]|tauto].
  - rewrite !without_cons, IH. tauto.
Qed.

Lemma cut_spec c s : exists r, s = cut (b2n c) s ++ r /\ without [c] (cut (b2n c) s) /\
  (r = [] /\ after_cut (b2n c) s = [] \/ r = c :: after_cut (b2n c) s).
Proof.
  induction s as [|b s (r & E & W & H)]; cbn [cut after_cut].
  - exists []. split; [reflexivity|]. split; [apply without_nil|auto].
  - destruct (b2n b =? b2n c) eqn:Eb.
    + apply one in Eb. subst b. exists (c :: s). split; [reflexivity|]. split; [apply without_nil|auto].
    + exists r. split; [cbn; congruence|]. split; [|exact H]. apply without_cons. split; [|exact W].
      intros ->. rewrite (proj2 (one c c) eq_refl) in Eb. discriminate Eb.
Qed.
Lemma cut_app c a r : without [c] a -> cut (b2n c) (a ++ c :: r) = a /\ after_cut (b2n c) (a ++ c :: r) = r.
Proof.
  induction a as [|b a IH]; cbn [app cut after_cut].
  - intros _. rewrite (proj2 (one c c) eq_refl). auto.
  - intros H. apply without_cons in H. destruct H as [Hb H]. destruct (IH H) as [-> ->].
    destruct (b2n b =? b2n c) eqn:Eb; [apply one in Eb; contradiction|auto].
Qed.
Lemma cut_all c a : without [c] a -> cut (b2n c) a = a /\ after_cut (b2n c) a = [].
Proof.
  induction a as [|b a IH]; cbn [cut after_cut]; [auto|].
  intros H. apply without_cons in H. destruct H as [Hb H]. destruct (IH H) as [-> ->].
  destruct (b2n b =? b2n c) eqn:Eb; [apply one in Eb; contradiction|auto].
Qed.

(** ** Escapes *)
Lemma hexval_spec b v : hexval b = Some v <-> exists i, hex_digit b i /\ v = N.of_nat i.
Proof.
  split.
  - intros H. exists (N.to_nat v). split; [|lia]. unfold hex_digit.
    destruct b; vm_compute in H; try discriminate H; injection H as <-; vm_compute; auto.
  - intros (i & [H|H] & ->); repeat (destruct i as [|i]; [injection H as <-; reflexivity|]); destruct i; discriminate H.
Qed.

Lemma unescaped_spec s : forall m, pct_dec s = Some m <-> unescaped s m.
Proof.
  assert (G : forall k s, (length s <= k)%nat -> forall m, pct_dec s = Some m <-> unescaped s m);
    [|intros m; apply (G (length s) s (le_n _))].
  clear s. induction k as [|k IH]; intros s Hl m.
  - destruct s; [|cbn in Hl; lia]. cbn. split; [intros H; injection H as <-; constructor|intros H; inversion H; reflexivity].
  - destruct s as [|b s]; [cbn; split; [intros H; injection H as <-; constructor|intros H; inversion H; reflexivity]|].
    cbn [pct_dec]. cbn [length] in Hl. destruct (b2n b =? 37) eqn:Eb.
    + change 37 with (b2n x25) in Eb. apply one in Eb. subst b. split.
      * destruct s as [|h [|l s']]; try discriminate. destruct (hexval h) as [x|] eqn:Hh; [|discriminate].
        destruct (hexval l) as [y|] eqn:Hy; [|discriminate]. destruct (pct_dec s') as [r|] eqn:Hr; [|discriminate].
        intros H. injection H as <-. apply hexval_spec in Hh. apply hexval_spec in Hy.
        destruct Hh as (i & Hi & ->), Hy as (j & Hj & ->). cbn in Hl. apply IH in Hr; [|lia].
        apply (ue_escape h l i j s' r); assumption.
      * intros H. inversion H as [|b0 s0 m0 Hn Hu|h l x y s0 m0 Hx Hy Hu]; subst; [contradiction Hn; reflexivity|].
        rewrite (proj2 (hexval_spec h (N.of_nat x))) by eauto. rewrite (proj2 (hexval_spec l (N.of_nat y))) by eauto.
        cbn in Hl. apply IH in Hu; [|lia]. rewrite Hu. reflexivity.
    + assert (Hb : [b] <> str "%") by (intros E; injection E as ->; discriminate Eb). split.
      * destruct (pct_dec s) as [r|] eqn:Hr; [|discriminate]. intros H. injection H as <-. constructor; [exact Hb|]. apply IH; [lia|exact Hr].
      * intros H. inversion H as [|b0 s0 m0 Hn Hu|h l x y s0 m0 Hx Hy Hu]; subst; [|discriminate Eb].
        apply IH in Hu; [|lia]. rewrite Hu. reflexivity.
Qed.

Lemma ctl_spec s : existsb is_ctl s = false <-> Forall printable s.
Proof.
  induction s as [|b s IH]; cbn; [split; [constructor|reflexivity]|].
  rewrite Bool.orb_false_iff, IH. unfold is_ctl. rewrite Bool.orb_false_iff, N.ltb_ge, N.eqb_neq.
  split; [intros [H1 H2]; constructor; [exact H1|exact H2]|intros H; inversion H; subst; split; assumption].
Qed.

(** ** Segments *)
Lemma segs_plain a : without [x2f] a -> forall acc s, segs acc (a ++ s) = segs (List.rev a ++ acc) s.
Proof.
  induction a as [|b a IH]; cbn [app List.rev]; [reflexivity|]. intros H acc s. apply without_cons in H. destruct H as [Hb H].
  cbn [segs]. destruct (b2n b =? 47) eqn:Eb; [change 47 with (b2n x2f) in Eb; apply one in Eb; contradiction|].
  rewrite (IH H), <- app_assoc. reflexivity.
Qed.
Lemma segs_end a : without [x2f] a -> segs [] a = [a].
Proof. intros H. rewrite <- (app_nil_r a) at 1. rewrite (segs_plain a H). cbn. rewrite app_nil_r, rev_involutive. reflexivity. Qed.
Lemma segs_slash a r : without [x2f] a -> segs [] (a ++ x2f :: r) = a :: segs [] r.
Proof. intros H. rewrite (segs_plain a H). cbn. rewrite app_nil_r, rev_involutive. reflexivity. Qed.

Lemma good_spec last g : good_seg last g = true <-> g <> str "." /\ g <> str ".." /\ (g = [] -> last = true).
Proof.
  unfold good_seg. rewrite !Bool.andb_true_iff, Bool.orb_true_iff, !Bool.negb_true_iff.
  destruct (bytes_eqb_spec g (str ".")) as [->|N1]; [intuition congruence|].
  destruct (bytes_eqb_spec g (str "..")) as [->|N2]; [intuition congruence|].
  destruct (bytes_eqb_spec g []) as [->|N3]; intuition congruence.
Qed.

Lemma first_segment s : (without [x2f] s) \/ exists a r, s = a ++ x2f :: r /\ without [x2f] a.
Proof.
  destruct (cut_spec x2f s) as (r & E & W & H). destruct H as [[-> _]| ->].
  - left. rewrite app_nil_r in E. rewrite E. exact W.
  - right. eauto.
Qed.

Lemma segs_cons s : exists x l, segs [] s = x :: l.
Proof.
  destruct (first_segment s) as [W|(a & r & -> & W)]; [rewrite (segs_end _ W)|rewrite (segs_slash _ _ W)]; eauto.
Qed.
Lemma clean_cons g s : clean (g :: segs [] s) = good_seg false g && clean (segs [] s).
Proof. destruct (segs_cons s) as (x & l & ->). reflexivity. Qed.

Lemma proper_one m : without [x2f] m -> (proper_path m <-> good_seg true m = true).
Proof.
  intros W. rewrite good_spec. split.
  - intros H. assert (E : m = [] ++ m ++ []) by (rewrite app_nil_r; reflexivity).
    destruct (H [] m [] E W (or_introl eq_refl) (or_introl eq_refl)) as (A & B & _). auto.
  - intros (A & B & _) a g b -> Wg Ha Hb.
    apply without_app in W. destruct W as [Wa W]. apply without_app in W. destruct W as [_ Wb].
    assert (a = []) as ->. { destruct Ha as [|[a' ->]]; [assumption|]. exfalso. apply without_app in Wa. destruct Wa as [_ Wa]. apply without_cons in Wa. destruct Wa as [Wa _]. apply Wa. reflexivity. }
    assert (b = []) as ->. { destruct Hb as [|[b' ->]]; [assumption|]. exfalso. apply without_cons in Wb. destruct Wb as [Wb _]. apply Wb. reflexivity. }
    rewrite app_nil_r in A, B. cbn in A, B. auto.
Qed.

Lemma split_at (a g r x b : bytes) : without [x2f] g -> without [x2f] a -> a ++ x2f :: r = x ++ g ++ b ->
  x = [] \/ (exists x', x = x' ++ [x2f]) -> b = [] \/ (exists b', b = x2f :: b') ->
  x = [] /\ g = a /\ b = x2f :: r \/ exists x', x = a ++ x2f :: x' /\ r = x' ++ g ++ b /\ (x' = [] \/ exists x'', x' = x'' ++ [x2f]).
Proof.
  intros Wg Wa E [->|[x' ->]] Hb.
  - left. cbn in E. revert g Wg E. induction a as [|c a IH]; intros [|d g] Wg E; cbn in E.
    + destruct Hb as [->|[b' ->]]; [discriminate E|auto].
    + injection E as <- E. apply without_cons in Wg. destruct Wg as [Wg _]. contradiction Wg; reflexivity.
    + apply without_cons in Wa. destruct Wa as [Wa _]. destruct Hb as [->|[b' ->]]; [discriminate E|]. injection E as -> E.
      contradiction Wa; reflexivity.
    + injection E as <- E. apply without_cons in Wg. apply without_cons in Wa.
      destruct (IH (proj2 Wa) g (proj2 Wg) E) as (_ & -> & ->). auto.
  - right. rewrite <- !app_assoc in E. cbn [app] in E. revert x' E. induction a as [|c a IH]; intros [|d x'] E; cbn in E.
    + injection E as ->. exists []. auto.
    + injection E as <- ->. exists (x' ++ [x2f]). rewrite <- app_assoc. cbn. repeat split; eauto.
    + apply without_cons in Wa. destruct Wa as [Wa _]. injection E as -> E. contradiction Wa; reflexivity.
    + injection E as <- E. apply without_cons in Wa. destruct (IH (proj2 Wa) x' E) as (y & Ey & -> & Hy).
      exists y. split; [|auto]. cbn. rewrite <- Ey. reflexivity.
Qed.

Lemma clean_spec m : clean (segs [] m) = true <-> proper_path m.
Proof.
  assert (G : forall k m, (length m <= k)%nat -> (clean (segs [] m) = true <-> proper_path m)); [|apply (G (length m) m (le_n _))].
  clear m. induction k as [|k IH]; intros m Hl.
  - destruct m; [|cbn in Hl; lia]. rewrite (proper_one [] (without_nil x2f)). reflexivity.
  - destruct (first_segment m) as [W|(a & r & -> & W)].
    + rewrite (segs_end m W). rewrite (proper_one m W). reflexivity.
    + rewrite (segs_slash a r W), clean_cons, Bool.andb_true_iff, good_spec.
      rewrite app_length in Hl. cbn in Hl. rewrite (IH r) by lia. split.
      * intros [(A1 & A2 & A3) P] x g b E Wg Hx Hb. destruct (split_at a g r x b Wg W E Hx Hb) as [(-> & -> & ->)|(x' & -> & E' & Hx')].
        -- repeat split; auto. intros Z. specialize (A3 Z). discriminate A3.
        -- apply (P x' g b E' Wg Hx' Hb).
      * intros P. split.
        -- destruct (P [] a (x2f :: r) eq_refl W (or_introl eq_refl) (or_intror (ex_intro _ r eq_refl))) as (A1 & A2 & A3).
           repeat split; auto. intros Z. specialize (A3 Z). discriminate A3.
        -- intros x g b -> Wg Hx Hb. apply (P (a ++ x2f :: x) g b); auto.
           { rewrite <- app_assoc. reflexivity. }
           right. destruct Hx as [->|[x' ->]]; [exists a; reflexivity|]. exists (a ++ x2f :: x'). rewrite <- app_assoc. reflexivity.
Qed.

(** ** The request *)
Lemma removes_exactly n m :
  (exists path, unregister_path n = Some path /\ delete_name path = Some m) <-> names_in_url n m.
Proof.
  assert (D : forall p, delete_name (str "/users/" ++ p) = Some p).
  { intros p. unfold delete_name. rewrite lenN_app. change (lenN (str "/users/")) with 7.
    destruct (N.leb_spec 7 (7 + lenN p)); [|lia]. f_equal. apply (dropN_app (str "/users/") p 7 eq_refl). }
  assert (S : (exists path, unregister_path n = Some path /\ delete_name path = Some m) <-> unregister_path n = Some (str "/users/" ++ m)).
  { split; [|eauto]. intros (path & H & Hd). rewrite H. f_equal. unfold unregister_path in H.
    destruct (existsb is_ctl (cut 35 n)); [discriminate H|]. destruct (pct_dec (after_cut 35 n)); [|discriminate H].
    destruct (pct_dec (cut 63 (cut 35 n))) as [p|]; [|discriminate H]. destruct (clean (segs [] p)); [|discriminate H].
    injection H as <-. change (delete_name (str "/users/" ++ p) = Some m) in Hd. rewrite D in Hd. injection Hd as ->. reflexivity. }
  rewrite S. clear S D. unfold unregister_path. change 35 with (b2n x23). change 63 with (b2n x3f). split.
  - destruct (cut_spec x23 n) as (f & En & Wf & Hf). set (u := cut (b2n x23) n) in *. set (fr := after_cut (b2n x23) n) in *.
    destruct (cut_spec x3f u) as (q & Eu & Wq & Hq). set (p := cut (b2n x3f) u) in *. set (qr := after_cut (b2n x3f) u) in *.
    destruct (existsb is_ctl u) eqn:Hc; [discriminate|]. destruct (pct_dec fr) as [f'|] eqn:Hfr; [|discriminate].
    destruct (pct_dec p) as [m'|] eqn:Hp; [|discriminate]. destruct (clean (segs [] m')) eqn:Hcl; [|discriminate].
    intros H. injection H as H. apply (f_equal (skipn 0)) in H. cbn in H. subst m'.
    rewrite Eu in Wf. apply without_app in Wf. destruct Wf as [Wf1 Wf2].
    exists p, q, f. split; [rewrite En at 1; rewrite Eu at 1; rewrite <- app_assoc; reflexivity|].
    split; [exact Wq|]. split; [exact Wf1|]. split; [exact Wf2|].
    split. { destruct Hq as [[-> _]| ->]; [auto|right; exists qr; reflexivity]. }
    split. { destruct Hf as [[-> _]| ->]; [auto|right; exists fr, f'; split; [reflexivity|apply unescaped_spec; exact Hfr]]. }
    split; [rewrite <- Eu; apply ctl_spec; exact Hc|]. split; [apply unescaped_spec; exact Hp|apply clean_spec; exact Hcl].
  - intros (p & q & f & -> & W1 & W2 & W3 & Hq & Hf & Hpr & Hu & Hm).
    assert (Wpq : without [x23] (p ++ q)) by (apply without_app; auto).
    assert (E1 : cut (b2n x23) (p ++ q ++ f) = p ++ q /\ exists f', pct_dec (after_cut (b2n x23) (p ++ q ++ f)) = Some f').
    { rewrite app_assoc. destruct Hf as [->|(g & g' & -> & Hg)].
      - rewrite app_nil_r. destruct (cut_all x23 _ Wpq) as [-> ->]. split; [reflexivity|exists []; reflexivity].
      - destruct (cut_app x23 _ g Wpq) as [A B]. change (str "#" ++ g) with (x23 :: g). rewrite A, B. split; [reflexivity|]. exists g'. apply unescaped_spec, Hg. }
    destruct E1 as [-> [f' ->]]. rewrite (proj2 (ctl_spec _) Hpr).
    assert (E2 : cut (b2n x3f) (p ++ q) = p).
    { destruct Hq as [->|[q' ->]]; [rewrite app_nil_r; apply cut_all, W1|apply (cut_app x3f p q' W1)]. }
    rewrite E2. apply unescaped_spec in Hu. rewrite Hu. apply clean_spec in Hm. rewrite Hm. reflexivity.
Qed.
