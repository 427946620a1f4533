(** Generic facts about parsers: sequencing, consumption, truncation,
    independence from segmentation. *)
From Verif Require Import Bytes BytesProofs Parser.

(** ** Sequencing *)
Lemma run_bind {A B} (p : parser A) (f : A -> parser B) s e :
  run (pbind p f) s e =
  match run p s e with
  | (inr a, s') => run (f a) s' e
  | (inl er, s') => (inl er, s')
  end.
Proof.
  revert s; induction p as [a|er|n k IH|n k IH|n k IH]; intros s; cbn [pbind run]; try reflexivity.
  - destruct (fl_read n s e) as [r s']; apply IH.
  - destruct (fl_copy n s e) as [r s']; apply IH.
  - apply IH.
Qed.

Lemma fl_read_app n a s e : lenN a = n -> fl_read n (a ++ s) e = (inr a, s).
Proof.
  intros H. unfold fl_read. rewrite lenN_app, takeN_app, dropN_app by assumption.
  destruct (N.leb_spec n (lenN a + lenN s)); [reflexivity|lia].
Qed.
Lemma fl_copy_app n a s e : lenN a = n -> fl_copy n (a ++ s) e = ((a, None), s).
Proof.
  intros H. unfold fl_copy. rewrite lenN_app, takeN_app, dropN_app by assumption.
  destruct (N.leb_spec n (lenN a + lenN s)); [reflexivity|lia].
Qed.

Lemma run_pread n a s e : lenN a = n -> run (pread n) (a ++ s) e = (inr a, s).
Proof. intros H. unfold pread; cbn [run]. rewrite (fl_read_app n a s e H). reflexivity. Qed.

Lemma run_palloc n s e : run (palloc n) s e = (inr tt, s).
Proof. reflexivity. Qed.

Lemma allocs_bind {A B} (p : parser A) (f : A -> parser B) s e :
  allocs (pbind p f) s e =
  allocs p s e ++ match run p s e with
                  | (inr a, s') => allocs (f a) s' e
                  | (inl _, _) => []
                  end.
Proof.
  revert s; induction p as [a|er|n k IH|n k IH|n k IH]; intros s; cbn [pbind allocs run app]; try reflexivity.
  - destruct (fl_read n s e) as [r s']; apply IH.
  - destruct (fl_copy n s e) as [r s']; apply IH.
  - f_equal; apply IH.
Qed.

(** ** Consumption: the unread rest is a suffix of the input *)
Lemma fl_read_suffix n s e r s' : fl_read n s e = (r, s') -> exists c, s = c ++ s'.
Proof.
  unfold fl_read; destruct (n <=? lenN s); intros [= <- <-].
  - exists (takeN n s). symmetry; apply takeN_dropN.
  - exists s. symmetry; apply app_nil_r.
Qed.
Lemma fl_copy_suffix n s e r s' : fl_copy n s e = (r, s') -> exists c, s = c ++ s'.
Proof.
  unfold fl_copy; destruct (n <=? lenN s); intros [= <- <-].
  - exists (takeN n s). symmetry; apply takeN_dropN.
  - exists s. symmetry; apply app_nil_r.
Qed.
Lemma run_suffix {A} (p : parser A) s e r s' :
  run p s e = (r, s') -> exists c, s = c ++ s'.
Proof.
  revert s; induction p as [a|er|n k IH|n k IH|n k IH]; intros s H; cbn [run] in H.
  - injection H as <- <-. exists []; reflexivity.
  - injection H as <- <-. exists []; reflexivity.
  - destruct (fl_read n s e) as [x s1] eqn:E. apply IH in H as [c2 ->].
    apply fl_read_suffix in E as [c1 ->]. exists (c1 ++ c2). apply app_assoc.
  - destruct (fl_copy n s e) as [x s1] eqn:E. apply IH in H as [c2 ->].
    apply fl_copy_suffix in E as [c1 ->]. exists (c1 ++ c2). apply app_assoc.
  - apply IH in H. exact H.
Qed.

(** ** Strict parsers: a short read always ends in an error *)
Fixpoint strict {A} (p : parser A) : Prop :=
  match p with
  | PRet _ | PFail _ => True
  | PRead n k =>
      (forall e, exists e', k (inl e) = PFail e') /\
      (forall b : bytes, lenN b = n -> strict (k (inr b)))
  | PCopy n k =>
      (forall (b : bytes) o, o <> None \/ lenN b <> n -> exists e', k (b, o) = PFail e') /\
      (forall b : bytes, lenN b = n -> strict (k (b, None)))
  | PAlloc _ k => strict k
  end.

Lemma strict_bind {A B} (p : parser A) (f : A -> parser B) :
  strict p -> (forall a, strict (f a)) -> strict (pbind p f).
Proof.
  intros Hp Hf; induction p as [a|er|n k IH|n k IH|n k IH]; cbn [pbind strict] in *; auto.
  - destruct Hp as [He Hs]; split.
    + intros e. destruct (He e) as [e' ->]. exists e'; reflexivity.
    + intros b Hb. apply IH, Hs, Hb.
  - destruct Hp as [He Hs]; split.
    + intros b o Hbo. destruct (He b o Hbo) as [e' ->]. exists e'; reflexivity.
    + intros b Hb. apply IH, Hs, Hb.
Qed.
Lemma strict_pread n : strict (pread n).
Proof. cbn; split; [intros e; exists e; reflexivity|auto]. Qed.
Lemma strict_palloc n : strict (palloc n).
Proof. cbn; auto. Qed.

(** What a strict parser accepts depends only on the octets it consumed, and no
    proper prefix of them is accepted. *)
Lemma strict_run {A} (p : parser A) : strict p -> forall s e a s',
  run p s e = (inr a, s') ->
  exists c, s = c ++ s' /\
    (forall t e', run p (c ++ t) e' = (inr a, t)) /\
    (forall c1 c2 e', c = c1 ++ c2 -> c2 <> [] -> exists er, fst (run p c1 e') = inl er).
Proof.
  induction p as [a0|er|n k IH|n k IH|n k IH]; intros Hs s e a s' H; cbn [run strict] in *.
  - injection H as -> ->. exists []. repeat split.
    intros c1 c2 e' Hc Hn. destruct c1; destruct c2; try discriminate Hc; congruence.
  - discriminate.
  - destruct Hs as [He Hs]. destruct (fl_read n s e) as [r s1] eqn:E.
    unfold fl_read in E. destruct (N.leb_spec n (lenN s)) as [Hl|Hl].
    + injection E as <- <-.
      assert (Hlen : lenN (takeN n s) = n) by (rewrite takeN_len; lia).
      destruct (IH (inr (takeN n s)) (Hs _ Hlen) _ _ _ _ H) as (c & Hc & Hext & Htr).
      exists (takeN n s ++ c). split; [rewrite <- app_assoc, <- Hc; symmetry; apply takeN_dropN|].
      split.
      * intros t e'. rewrite <- app_assoc, (fl_read_app n _ _ _ Hlen). apply Hext.
      * intros c1 c2 e' Heq Hne. unfold fl_read. destruct (N.leb_spec n (lenN c1)) as [Hl1|Hl1].
        -- pose proof (takeN_dropN n c1) as Htd. rewrite <- Htd, <- app_assoc in Heq.
           assert (Hl2 : lenN (takeN n s) = lenN (takeN n c1)) by (rewrite Hlen, takeN_len; lia).
           destruct (app_inj_lenN _ _ _ _ Hl2 Heq) as [Hh Ht]. rewrite <- Hh.
           apply (Htr _ c2 e' Ht Hne).
        -- destruct (He (match e' with EndEOF => EShort | EndErr => EIO end)) as [er Her].
           rewrite Her. exists er; reflexivity.
    + injection E as <- <-. destruct (He (match e with EndEOF => EShort | EndErr => EIO end)) as [er Her].
      rewrite Her in H. discriminate H.
  - destruct Hs as [He Hs]. destruct (fl_copy n s e) as [r s1] eqn:E.
    unfold fl_copy in E. destruct (N.leb_spec n (lenN s)) as [Hl|Hl].
    + injection E as <- <-.
      assert (Hlen : lenN (takeN n s) = n) by (rewrite takeN_len; lia).
      destruct (IH (takeN n s, None) (Hs _ Hlen) _ _ _ _ H) as (c & Hc & Hext & Htr).
      exists (takeN n s ++ c). split; [rewrite <- app_assoc, <- Hc; symmetry; apply takeN_dropN|].
      split.
      * intros t e'. rewrite <- app_assoc, (fl_copy_app n _ _ _ Hlen). apply Hext.
      * intros c1 c2 e' Heq Hne. unfold fl_copy. destruct (N.leb_spec n (lenN c1)) as [Hl1|Hl1].
        -- pose proof (takeN_dropN n c1) as Htd. rewrite <- Htd, <- app_assoc in Heq.
           assert (Hl2 : lenN (takeN n s) = lenN (takeN n c1)) by (rewrite Hlen, takeN_len; lia).
           destruct (app_inj_lenN _ _ _ _ Hl2 Heq) as [Hh Ht]. rewrite <- Hh.
           apply (Htr _ c2 e' Ht Hne).
        -- destruct (He c1 (match e' with EndEOF => None | EndErr => Some EIO end)) as [er Her].
           { right; lia. }
           rewrite Her. exists er; reflexivity.
    + injection E as <- <-.
      destruct (He s (match e with EndEOF => None | EndErr => Some EIO end)) as [er Her].
      { right; lia. }
      rewrite Her in H; discriminate H.
  - destruct (IH Hs _ _ _ _ H) as (c & ? & ? & ?). exists c; auto.
Qed.

(** Two messages accepted by a strict parser: neither is a proper prefix of the
    other. *)
Lemma strict_prefix_free {A} (p : parser A) : strict p ->
  forall m1 m2 a1 a2 e1 e2 t,
    run p m1 e1 = (inr a1, []) -> run p m2 e2 = (inr a2, []) ->
    m2 = m1 ++ t -> t = [] /\ a1 = a2.
Proof.
  intros Hs m1 m2 a1 a2 e1 e2 t H1 H2 ->.
  destruct (strict_run p Hs _ _ _ _ H1) as (c & Hc & Hext & _). rewrite app_nil_r in Hc; subst c.
  rewrite Hext in H2. injection H2 as -> ->. auto.
Qed.

(** ** Segmentation *)
Lemma ch_take_spec cs : forall n got rest, ch_take n cs = (got, rest) ->
  concat cs = got ++ concat rest /\
  ((n <= lenN (concat cs) /\ lenN got = n) \/ (lenN (concat cs) < n /\ got = concat cs /\ rest = [])).
Proof.
  induction cs as [|c cs IH]; intros n got rest H; cbn [ch_take] in H.
  - injection H as <- <-. cbn [concat app]. split; [reflexivity|].
    rewrite lenN_nil. destruct (N.eq_0_gt_0_cases n); [left; lia|right; auto].
  - destruct (N.eqb_spec n 0) as [->|Hn].
    + injection H as <- <-. split; [reflexivity|]. left; split; [apply N.le_0_l|reflexivity].
    + destruct (N.leb_spec (lenN c) n) as [Hl|Hl].
      * destruct (ch_take (n - lenN c) cs) as [g r] eqn:E. injection H as <- <-.
        destruct (IH _ _ _ E) as [Hc Hd]. cbn [concat]. rewrite Hc, <- app_assoc.
        split; [reflexivity|].
        rewrite !lenN_app. rewrite Hc, lenN_app in Hd. destruct Hd as [[H1 H2]|(H1 & H2 & H3)].
        -- left; lia.
        -- right. subst r. cbn [concat app] in *. change (lenN (@nil byte)) with 0 in *.
           rewrite app_nil_r. repeat split; lia.
      * injection H as <- <-. cbn [concat]. rewrite app_assoc, takeN_dropN. split; [reflexivity|].
        left. rewrite takeN_len, lenN_app. lia.
Qed.

Lemma ch_read_sim n cs e r cs' : ch_read n cs e = (r, cs') ->
  fl_read n (concat cs) e = (r, concat cs').
Proof.
  unfold ch_read. destruct (ch_take n cs) as [got rest] eqn:E.
  destruct (ch_take_spec _ _ _ _ E) as [Hc [[H1 H2]|(H1 & H2 & H3)]].
  - rewrite (proj2 (N.eqb_eq _ _) H2). intros [= <- <-]. rewrite Hc. apply fl_read_app, H2.
  - destruct (N.eqb_spec (lenN got) n); [subst; lia|]. intros [= <- <-]. subst rest.
    unfold fl_read. destruct (N.leb_spec n (lenN (concat cs))); [lia|]. reflexivity.
Qed.
Lemma ch_copy_sim n cs e r cs' : ch_copy n cs e = (r, cs') ->
  fl_copy n (concat cs) e = (r, concat cs').
Proof.
  unfold ch_copy. destruct (ch_take n cs) as [got rest] eqn:E.
  destruct (ch_take_spec _ _ _ _ E) as [Hc [[H1 H2]|(H1 & H2 & H3)]].
  - rewrite (proj2 (N.eqb_eq _ _) H2). intros [= <- <-]. rewrite Hc. apply fl_copy_app, H2.
  - destruct (N.eqb_spec (lenN got) n); [subst; lia|]. intros [= <- <-]. subst rest got.
    unfold fl_copy. destruct (N.leb_spec n (lenN (concat cs))); [lia|]. reflexivity.
Qed.

Lemma run_ch_sim {A} (p : parser A) cs e r cs' :
  run_ch p cs e = (r, cs') -> run p (concat cs) e = (r, concat cs').
Proof.
  revert cs; induction p as [a|er|n k IH|n k IH|n k IH]; intros cs H; cbn [run_ch run] in *.
  - injection H as <- <-; reflexivity.
  - injection H as <- <-; reflexivity.
  - destruct (ch_read n cs e) as [x c1] eqn:E. rewrite (ch_read_sim _ _ _ _ _ E). apply IH, H.
  - destruct (ch_copy n cs e) as [x c1] eqn:E. rewrite (ch_copy_sim _ _ _ _ _ E). apply IH, H.
  - apply IH, H.
Qed.

Lemma run_ch_indep {A} (p : parser A) cs1 cs2 e :
  concat cs1 = concat cs2 ->
  fst (run_ch p cs1 e) = fst (run_ch p cs2 e) /\
  concat (snd (run_ch p cs1 e)) = concat (snd (run_ch p cs2 e)).
Proof.
  intros H. destruct (run_ch p cs1 e) as [r1 c1] eqn:E1, (run_ch p cs2 e) as [r2 c2] eqn:E2.
  apply run_ch_sim in E1, E2. rewrite H, E2 in E1.
  injection E1 as Ha Hb. cbn [fst snd]. auto.
Qed.
