(** Lemmas about octets and big-endian integers. *)
From Verif Require Import Bytes.
From Coq Require Export ZifyBool ZifyNat ZifyN.
Ltac Zify.zify_post_hook ::= Z.div_mod_to_equations.

Arguments N.add : simpl never.
Arguments N.mul : simpl never.
Arguments N.sub : simpl never.
Arguments N.div : simpl never.
Arguments N.modulo : simpl never.
Arguments N.pow : simpl never.

Lemma b2n_lt b : b2n b < 256.
Proof. pose proof (Byte.to_N_bounded b); unfold b2n; lia. Qed.

Lemma b2n_n2b n : b2n (n2b n) = n mod 256.
Proof.
  unfold b2n, n2b. destruct (Byte.of_N (n mod 256)) as [b|] eqn:E.
  - apply Byte.to_of_N in E; exact E.
  - apply Byte.of_N_None_iff in E. pose proof (N.mod_lt n 256); lia.
Qed.

Lemma n2b_b2n b : n2b (b2n b) = b.
Proof.
  unfold n2b. rewrite N.mod_small by apply b2n_lt.
  unfold b2n. rewrite Byte.of_to_N; reflexivity.
Qed.

Lemma b2n_inj a b : b2n a = b2n b -> a = b.
Proof. intros H. rewrite <- (n2b_b2n a), <- (n2b_b2n b), H; reflexivity. Qed.

Lemma n2b_small_inj m n : m < 256 -> n < 256 -> n2b m = n2b n -> m = n.
Proof.
  intros Hm Hn H. apply (f_equal b2n) in H. rewrite !b2n_n2b in H.
  rewrite !N.mod_small in H by assumption. exact H.
Qed.

Lemma lenN_app {A} (a b : list A) : lenN (a ++ b) = lenN a + lenN b.
Proof. unfold lenN; rewrite app_length; lia. Qed.
Lemma lenN_cons {A} (x : A) l : lenN (x :: l) = 1 + lenN l.
Proof. unfold lenN; cbn [length]; lia. Qed.
Lemma lenN_nil {A} : lenN (@nil A) = 0.
Proof. reflexivity. Qed.
Lemma lenN_0 {A} (l : list A) : lenN l = 0 -> l = [].
Proof. destruct l; [reflexivity|]. rewrite lenN_cons; lia. Qed.
Lemma lenN_firstn {A} n (l : list A) : n <= lenN l -> lenN (firstn (N.to_nat n) l) = n.
Proof. unfold lenN; intros H; rewrite firstn_length; lia. Qed.

Lemma be_enc_length k n : length (be_enc k n) = k.
Proof.
  revert n; induction k as [|k IH]; intros n; cbn [be_enc]; [reflexivity|].
  rewrite app_length, IH; cbn; lia.
Qed.
Lemma be_enc_lenN k n : lenN (be_enc k n) = N.of_nat k.
Proof. unfold lenN; rewrite be_enc_length; reflexivity. Qed.

Lemma be_dec_acc_app acc a b : be_dec_acc acc (a ++ b) = be_dec_acc (be_dec_acc acc a) b.
Proof.
  revert acc; induction a as [|x a IH]; intros acc; cbn [app be_dec_acc]; [reflexivity|apply IH].
Qed.
Lemma be_dec_app1 a x : be_dec (a ++ [x]) = be_dec a * 256 + b2n x.
Proof. unfold be_dec; rewrite be_dec_acc_app; reflexivity. Qed.

Lemma be_dec_enc k n : be_dec (be_enc k n) = n mod 256 ^ N.of_nat k.
Proof.
  revert n; induction k as [|k IH]; intros n; cbn [be_enc].
  - cbn. rewrite N.mod_1_r; reflexivity.
  - rewrite be_dec_app1, IH, b2n_n2b.
    replace (N.of_nat (S k)) with (N.succ (N.of_nat k)) by lia.
    rewrite N.pow_succ_r'. rewrite N.mod_mul_r.
    + lia.
    + lia.
    + apply N.pow_nonzero; lia.
Qed.

Lemma be_dec_enc_small k n : n < 256 ^ N.of_nat k -> be_dec (be_enc k n) = n.
Proof. intros H; rewrite be_dec_enc; apply N.mod_small; exact H. Qed.

Lemma be_dec_acc_bound l acc :
  be_dec_acc acc l < (acc + 1) * 256 ^ lenN l.
Proof.
  revert acc; induction l as [|x l IH]; intros acc; cbn [be_dec_acc].
  - rewrite lenN_nil, N.pow_0_r; lia.
  - specialize (IH (acc * 256 + b2n x)). rewrite lenN_cons, N.pow_add_r, N.pow_1_r.
    pose proof (b2n_lt x).
    apply N.lt_le_trans with (1 := IH).
    rewrite N.mul_assoc. apply N.mul_le_mono_r. lia.
Qed.
Lemma be_dec_bound l : be_dec l < 256 ^ lenN l.
Proof. pose proof (be_dec_acc_bound l 0) as H. unfold be_dec. lia. Qed.

Lemma be_enc_dec l : be_enc (length l) (be_dec l) = l.
Proof.
  induction l as [|x l IH] using rev_ind; [reflexivity|].
  rewrite app_length; cbn [length]. rewrite Nat.add_1_r; cbn [be_enc].
  rewrite be_dec_app1. pose proof (b2n_lt x) as Hx.
  replace ((be_dec l * 256 + b2n x) / 256) with (be_dec l) by lia.
  rewrite IH. f_equal. f_equal.
  apply b2n_inj. rewrite b2n_n2b. lia.
Qed.

Lemma be_enc_inj k m n : m < 256 ^ N.of_nat k -> n < 256 ^ N.of_nat k ->
  be_enc k m = be_enc k n -> m = n.
Proof.
  intros Hm Hn H. apply (f_equal be_dec) in H. rewrite !be_dec_enc_small in H by assumption.
  exact H.
Qed.

Lemma be_enc_dec_len k l : length l = k -> be_enc k (be_dec l) = l.
Proof. intros <-; apply be_enc_dec. Qed.

Lemma pow256_4 : 256 ^ N.of_nat 4 = two32. Proof. reflexivity. Qed.
Lemma pow256_8 : 256 ^ N.of_nat 8 = two64. Proof. reflexivity. Qed.

Lemma bytes_eqb_spec a b : reflect (a = b) (bytes_eqb a b).
Proof. unfold bytes_eqb; destruct (list_eq_dec _ a b); constructor; assumption. Qed.
Lemma bytes_eqb_refl a : bytes_eqb a a = true.
Proof. destruct (bytes_eqb_spec a a); congruence. Qed.

Lemma firstn_app_exact {A} (a b : list A) : firstn (length a) (a ++ b) = a.
Proof. rewrite firstn_app, Nat.sub_diag, firstn_O, app_nil_r, firstn_all; reflexivity. Qed.
Lemma skipn_app_exact {A} (a b : list A) : skipn (length a) (a ++ b) = b.
Proof. rewrite skipn_app, Nat.sub_diag, skipn_O, skipn_all; reflexivity. Qed.

Lemma app_inj_len {A} (a b c d : list A) :
  length a = length c -> a ++ b = c ++ d -> a = c /\ b = d.
Proof.
  revert c; induction a as [|x a IH]; intros [|y c] Hl H; cbn in *; try discriminate.
  - auto.
  - injection H as -> H. injection Hl as Hl. destruct (IH c Hl H); subst; auto.
Qed.

Lemma app_inj_lenN {A} (a b c d : list A) :
  lenN a = lenN c -> a ++ b = c ++ d -> a = c /\ b = d.
Proof. unfold lenN; intros H; apply app_inj_len; lia. Qed.

Lemma takeN_dropN {A} n (l : list A) : takeN n l ++ dropN n l = l.
Proof.
  unfold takeN, dropN; destruct (lenN l <=? n); [apply app_nil_r|apply firstn_skipn].
Qed.
Lemma takeN_len {A} n (l : list A) : lenN (takeN n l) = N.min n (lenN l).
Proof.
  unfold takeN. destruct (N.leb_spec (lenN l) n); [lia|]. rewrite lenN_firstn; lia.
Qed.
Lemma dropN_len {A} n (l : list A) : lenN (dropN n l) = lenN l - n.
Proof.
  pose proof (f_equal lenN (takeN_dropN n l)) as H. rewrite lenN_app, takeN_len in H. lia.
Qed.
Lemma takeN_app {A} (a b : list A) n : lenN a = n -> takeN n (a ++ b) = a.
Proof.
  intros <-. unfold takeN. rewrite lenN_app. destruct (N.leb_spec (lenN a + lenN b) (lenN a)).
  - assert (b = []) as -> by (apply lenN_0; lia). apply app_nil_r.
  - unfold lenN. rewrite Nnat.Nat2N.id. apply firstn_app_exact.
Qed.
Lemma dropN_app {A} (a b : list A) n : lenN a = n -> dropN n (a ++ b) = b.
Proof.
  intros H. pose proof (takeN_dropN n (a ++ b)) as E. rewrite (takeN_app a b n H) in E.
  apply app_inv_head in E; exact E.
Qed.
