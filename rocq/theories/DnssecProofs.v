From Coq Require Import Strings.String.
From Verif Require Import Bytes BytesProofs Crypto Kdf WireProofs Base64 Base64Proofs Server ServerProps Dnssec SpecDnssec.

Lemma byte_eqb_refl c : Byte.eqb c c = true.
Proof. apply Byte.byte_dec_lb. reflexivity. Qed.

(** * Base64 *)
Lemma b64_digit_char v : v < 64 -> b64_digit (b64_char v) = Some v.
Proof.
  intros H. pose proof (sweep (fun v => match b64_digit (b64_char v) with Some u => u =? v | None => false end)
    64 ltac:(vm_compute; reflexivity) v H) as E. cbn beta in E.
  destruct (b64_digit (b64_char v)); [|discriminate]. apply N.eqb_eq in E. congruence.
Qed.
Lemma b64_char_clean v : v < 64 -> not_eol (b64_char v) = true /\ b64_char v <> x20.
Proof.
  intros H. pose proof (sweep (fun v => not_eol (b64_char v) && negb (Byte.eqb (b64_char v) x20))
    64 ltac:(vm_compute; reflexivity) v H) as E. cbn beta in E.
  apply andb_prop in E as [E1 E2]. split; [exact E1|]. intros K. rewrite K in E2. discriminate.
Qed.
Lemma group_of v : v < 16777216 ->
  b64_group (v / 262144) (v / 4096 mod 64) (v / 64 mod 64) (v mod 64) = be_enc 3 v.
Proof. intros H. unfold b64_group. destruct (b64_digits v H) as [E _]. rewrite <- E. reflexivity. Qed.
Lemma be_enc3 x y z : be_enc 3 (b2n x * 65536 + b2n y * 256 + b2n z) = [x; y; z].
Proof.
  replace (b2n x * 65536 + b2n y * 256 + b2n z) with (be_dec [x; y; z])
    by (unfold be_dec; cbn [be_dec_acc]; lia).
  apply be_enc_dec_len. reflexivity.
Qed.
Lemma mod64_lt v : v mod 64 < 64. Proof. apply N.mod_lt. discriminate. Qed.

Lemma list3_ind (P : bytes -> Prop) : P [] -> (forall x, P [x]) -> (forall x y, P [x; y]) ->
  (forall x y z r, P r -> P (x :: y :: z :: r)) -> forall l, P l.
Proof.
  intros H0 H1 H2 H3. assert (forall n l, (length l <= n)%nat -> P l) as K.
  { induction n as [|n IH]; intros l Hn.
    - destruct l; [exact H0|cbn in Hn; lia].
    - destruct l as [|x [|y [|z r]]]; auto. apply H3, IH. cbn in Hn. lia. }
  intros l. apply (K (length l)). lia.
Qed.

Lemma base64_clean b : Forall (fun c => not_eol c = true /\ c <> x20) (base64 b).
Proof.
  induction b as [|x|x y|x y z r IH] using list3_ind; cbn [base64].
  - constructor.
  - pose proof (b2n_lt x). repeat constructor; try (vm_compute; reflexivity); try discriminate;
      apply b64_char_clean; try apply mod64_lt; apply (proj2 (b64_digits (b2n x * 65536) ltac:(lia))).
  - pose proof (b2n_lt x). pose proof (b2n_lt y). repeat constructor; try (vm_compute; reflexivity); try discriminate;
      apply b64_char_clean; try apply mod64_lt;
      apply (proj2 (b64_digits (b2n x * 65536 + b2n y * 256) ltac:(lia))).
  - pose proof (b2n_lt x). pose proof (b2n_lt y). pose proof (b2n_lt z).
    repeat (constructor; [apply b64_char_clean; try apply mod64_lt;
      apply (proj2 (b64_digits (b2n x * 65536 + b2n y * 256 + b2n z) ltac:(lia)))|]). exact IH.
Qed.
Lemma filter_all {A} (f : A -> bool) l : Forall (fun x => f x = true) l -> filter f l = l.
Proof. induction 1 as [|x l H _ IH]; [reflexivity|]. cbn. rewrite H, IH. reflexivity. Qed.
Lemma base64_spaceless b : spaceless (base64 b).
Proof.
  intros I. pose proof (base64_clean b) as F. rewrite Forall_forall in F. apply F in I. apply I. reflexivity.
Qed.

Lemma b64_groups_base64 b : b64_groups (base64 b) = Some b.
Proof.
  induction b as [|x|x y|x y z r IH] using list3_ind; cbn [base64].
  - reflexivity.
  - pose proof (b2n_lt x). cbn [b64_groups]. set (v := b2n x * 65536).
    assert (v < 16777216) as Hv by (unfold v; lia).
    destruct (b64_digits v Hv) as [D L]. rewrite !b64_digit_char by (apply mod64_lt || exact L).
    change (b64_digit b64_pad) with (@None N). rewrite !byte_eqb_refl. cbn [andb].
    pose proof (group_of v Hv) as G.
    replace (v / 64 mod 64) with 0 in G.
    2:{ unfold v. replace (b2n x * 65536) with (b2n x * 16 * 64 * 64) by lia.
        rewrite N.div_mul by discriminate. symmetry. apply mod64_mul. }
    replace (v mod 64) with 0 in G.
    2:{ unfold v. replace (b2n x * 65536) with (b2n x * 1024 * 64) by lia. symmetry. apply mod64_mul. }
    rewrite G. unfold v. replace (b2n x * 65536) with (b2n x * 65536 + b2n x00 * 256 + b2n x00) by (cbn; lia).
    rewrite be_enc3. reflexivity.
  - pose proof (b2n_lt x). pose proof (b2n_lt y). cbn [b64_groups]. set (v := b2n x * 65536 + b2n y * 256).
    assert (v < 16777216) as Hv by (unfold v; lia).
    destruct (b64_digits v Hv) as [D L]. rewrite !b64_digit_char by (apply mod64_lt || exact L).
    change (b64_digit b64_pad) with (@None N). rewrite !byte_eqb_refl.
    pose proof (group_of v Hv) as G.
    replace (v mod 64) with 0 in G.
    2:{ unfold v. replace (b2n x * 65536 + b2n y * 256) with ((b2n x * 1024 + b2n y * 4) * 64) by lia.
        symmetry. apply mod64_mul. }
    rewrite G. unfold v. replace (b2n x * 65536 + b2n y * 256)
      with (b2n x * 65536 + b2n y * 256 + b2n x00) by (cbn; lia).
    rewrite be_enc3. reflexivity.
  - pose proof (b2n_lt x). pose proof (b2n_lt y). pose proof (b2n_lt z). cbn [b64_groups].
    set (v := b2n x * 65536 + b2n y * 256 + b2n z).
    assert (v < 16777216) as Hv by (unfold v; lia).
    destruct (b64_digits v Hv) as [D L]. rewrite !b64_digit_char by (apply mod64_lt || exact L).
    rewrite IH, (group_of v Hv). unfold v. rewrite be_enc3. reflexivity.
Qed.
Lemma b64_decode_base64 b : b64_decode (base64 b) = Some b.
Proof.
  unfold b64_decode. rewrite filter_all; [apply b64_groups_base64|].
  eapply Forall_impl; [|apply base64_clean]. cbn. tauto.
Qed.

Lemma digit_iff c v : b64_digit c = Some v <-> digit c v.
Proof.
  split.
  - intros H. assert (v < 64) as L.
    { unfold b64_digit in H. pose proof (b2n_lt c).
      destruct ((65 <=? b2n c) && (b2n c <? 91)) eqn:E1; [apply andb_prop in E1 as [A B]; apply N.leb_le in A; apply N.ltb_lt in B; injection H as <-; lia|].
      destruct ((97 <=? b2n c) && (b2n c <? 123)) eqn:E2; [apply andb_prop in E2 as [A B]; apply N.leb_le in A; apply N.ltb_lt in B; injection H as <-; lia|].
      destruct ((48 <=? b2n c) && (b2n c <? 58)) eqn:E3; [apply andb_prop in E3 as [A B]; apply N.leb_le in A; apply N.ltb_lt in B; injection H as <-; lia|].
      destruct (b2n c =? 43); [injection H as <-; lia|]. destruct (b2n c =? 47); [injection H as <-; lia|discriminate]. }
    assert (c = b64_char v) as ->.
    { pose proof (sweep (fun n => match b64_digit (n2b n) with Some u => Byte.eqb (n2b n) (b64_char u) | None => true end)
        256 ltac:(vm_compute; reflexivity) (b2n c) (b2n_lt c)) as S. cbn beta in S. rewrite n2b_b2n, H in S.
      apply Byte.byte_dec_bl, S. }
    unfold digit. pose proof (sweep (fun u => match nth_error alphabet (N.to_nat u) with Some x => Byte.eqb x (b64_char u) | None => false end)
      64 ltac:(vm_compute; reflexivity) v L) as S. cbn beta in S.
    destruct (nth_error alphabet (N.to_nat v)); [|discriminate]. apply Byte.byte_dec_bl in S. congruence.
  - unfold digit. intros H. assert (v < 64) as L.
    { assert (nth_error alphabet (N.to_nat v) <> None) as K by congruence. apply nth_error_Some in K.
      change (length alphabet) with 64%nat in K. lia. }
    pose proof (sweep (fun u => match nth_error alphabet (N.to_nat u) with Some x => Byte.eqb x (b64_char u) | None => false end)
      64 ltac:(vm_compute; reflexivity) v L) as S. cbn beta in S. rewrite H in S. apply Byte.byte_dec_bl in S. subst c.
    apply b64_digit_char, L.
Qed.
Lemma digit_lt c v : digit c v -> v < 64.
Proof.
  unfold digit. intros H. assert (nth_error alphabet (N.to_nat v) <> None) as K by congruence. apply nth_error_Some in K.
  change (length alphabet) with 64%nat in K. lia.
Qed.
Lemma group_octets a b c d : a < 64 -> b < 64 -> c < 64 -> d < 64 ->
  b64_group a b c d = [n2b (a * 4 + b / 16); n2b (b mod 16 * 16 + c / 4); n2b (c mod 4 * 64 + d)].
Proof.
  intros Ha Hb Hc Hd. unfold b64_group.
  pose proof (N.div_mod b 16 ltac:(discriminate)) as Eb. pose proof (N.mod_lt b 16 ltac:(discriminate)) as Lb.
  pose proof (N.div_mod c 4 ltac:(discriminate)) as Ec. pose proof (N.mod_lt c 4 ltac:(discriminate)) as Lc.
  generalize dependent (b / 16). generalize dependent (b mod 16). generalize dependent (c / 4). generalize dependent (c mod 4).
  intros r Hr q Ec r' Hr' q' Eb.
  rewrite <- (be_enc3 (n2b (a * 4 + q')) (n2b (r' * 16 + q)) (n2b (r * 64 + d))). f_equal.
  rewrite !b2n_n2b, !N.mod_small by lia. lia.
Qed.
Lemma pad_not_digit v : ~ digit b64_pad v.
Proof. rewrite <- digit_iff. discriminate. Qed.
Lemma list4_ind (P : bytes -> Prop) : P [] -> (forall a, P [a]) -> (forall a b, P [a; b]) -> (forall a b c, P [a; b; c]) ->
  (forall a b c d r, P r -> P (a :: b :: c :: d :: r)) -> forall l, P l.
Proof.
  intros H0 H1 H2 H3 H4. assert (forall n l, (length l <= n)%nat -> P l) as K.
  { induction n as [|n IH]; intros l Hn.
    - destruct l; [exact H0|cbn in Hn; lia].
    - destruct l as [|x [|y [|z [|w r]]]]; auto. apply H4, IH. cbn in Hn. lia. }
  intros l. apply (K (length l)). lia.
Qed.
Lemma groups_iff s t : b64_groups s = Some t <-> b64_denotes s t.
Proof.
  split.
  - revert t. induction s as [|a|a b|a b c|a b c d r IH] using list4_ind; intros t; try discriminate.
    + intros [= <-]. constructor.
    + cbn [b64_groups]. destruct (b64_digit a) as [va|] eqn:Ea; [|discriminate].
      destruct (b64_digit b) as [vb|] eqn:Eb; [|discriminate]. apply digit_iff in Ea, Eb.
      pose proof (digit_lt _ _ Ea). pose proof (digit_lt _ _ Eb).
      destruct (b64_digit c) as [vc|] eqn:Ec.
      * apply digit_iff in Ec. pose proof (digit_lt _ _ Ec). destruct (b64_digit d) as [vd|] eqn:Ed.
        -- apply digit_iff in Ed. pose proof (digit_lt _ _ Ed).
           destruct (b64_groups r) as [t'|]; [|discriminate]. intros E. rewrite group_octets in E by assumption. cbn [app] in E.
           injection E as <-. constructor; auto.
        -- destruct (Byte.eqb d b64_pad) eqn:P; [|discriminate]. apply Byte.byte_dec_bl in P. subst d.
           destruct r; [|discriminate]. intros E. rewrite group_octets in E by (assumption || lia). cbn [firstn] in E.
           injection E as <-. apply B64_two; assumption.
      * destruct (Byte.eqb c b64_pad) eqn:P; [|discriminate]. apply Byte.byte_dec_bl in P. subst c.
        destruct (Byte.eqb d b64_pad) eqn:P; [|discriminate]. apply Byte.byte_dec_bl in P. subst d. cbn [andb].
        destruct r; [|discriminate]. intros E. rewrite group_octets in E by (assumption || lia). cbn [firstn] in E.
        injection E as <-. apply B64_one; assumption.
  - induction 1 as [|a b c d va vb vc vd s t A B C D _ IH|a b c va vb vc A B C|a b va vb A B]; [reflexivity|..];
      cbn [b64_groups]; pose proof (digit_lt _ _ A); pose proof (digit_lt _ _ B);
      apply digit_iff in A, B; rewrite A, B.
    + pose proof (digit_lt _ _ C). pose proof (digit_lt _ _ D). apply digit_iff in C, D.
      rewrite C, D, IH, group_octets by assumption. reflexivity.
    + pose proof (digit_lt _ _ C). apply digit_iff in C. rewrite C. change (b64_digit x3d) with (@None N).
      rewrite group_octets by (assumption || lia). reflexivity.
    + change (b64_digit x3d) with (@None N). rewrite group_octets by (assumption || lia). reflexivity.
Qed.
Lemma decode_iff s raw : b64_decode s = Some raw <-> encodes s raw.
Proof. apply groups_iff. Qed.

(** * Fields *)
Lemma split_word sep w r : ~ In sep w -> split_on sep (w ++ sep :: r) = w :: split_on sep r.
Proof.
  induction w as [|c w IH]; intros H; cbn [app split_on].
  - rewrite byte_eqb_refl. reflexivity.
  - destruct (Byte.eqb c sep) eqn:E.
    + apply Byte.byte_dec_bl in E. subst. exfalso. apply H. left. reflexivity.
    + rewrite IH by (intros I; apply H; right; exact I). reflexivity.
Qed.
Lemma split_last sep w : ~ In sep w -> split_on sep w = [w].
Proof.
  induction w as [|c w IH]; intros H; cbn [app split_on]; [reflexivity|].
  destruct (Byte.eqb c sep) eqn:E.
  - apply Byte.byte_dec_bl in E. subst. exfalso. apply H. left. reflexivity.
  - rewrite IH by (intros I; apply H; right; exact I). reflexivity.
Qed.
Lemma split_nonempty sep s : split_on sep s <> [].
Proof. destruct s; cbn; [discriminate|]. destruct (Byte.eqb b sep); [discriminate|]. destruct (split_on sep s); discriminate. Qed.
(** Joining the words gives the string back; no word contains the separator. *)
Fixpoint join (sep : byte) (ws : list bytes) : bytes :=
  match ws with [] => [] | [w] => w | w :: r => w ++ sep :: join sep r end.
Lemma join_split sep s : join sep (split_on sep s) = s /\ Forall (fun w => ~ In sep w) (split_on sep s).
Proof.
  induction s as [|c s [IH F]]; [cbn; split; [reflexivity|repeat constructor; auto]|].
  cbn [split_on]. destruct (Byte.eqb c sep) eqn:E.
  - apply Byte.byte_dec_bl in E. subst c. split; [|constructor; [intros []|exact F]].
    destruct (split_on sep s) eqn:S; [destruct (split_nonempty sep s S)|]. cbn [join app] in *. rewrite IH. reflexivity.
  - destruct (split_on sep s) as [|w ws] eqn:S; [destruct (split_nonempty sep s S)|].
    inversion F; subst. split.
    + destruct ws; cbn [join app] in *; rewrite ?IH; congruence.
    + constructor; [|assumption]. intros [->|I]; [|contradiction].
      rewrite byte_eqb_refl in E. discriminate.
Qed.
Lemma split_fields s f p a k : split_on x20 s = [f; p; a; k] <-> fields s f p a k.
Proof.
  split.
  - intros S. destruct (join_split x20 s) as [J F]. rewrite S in *. cbn [join] in J.
    inversion F as [|? ? F1 F']; inversion F' as [|? ? F2 F'']; inversion F'' as [|? ? F3 F4]; inversion F4; subst.
    unfold fields, spaceless. auto.
  - intros (-> & Hf & Hp & Ha & Hk). cbn [app].
    rewrite !split_word by assumption. rewrite split_last by assumption. reflexivity.
Qed.

(** * Numerals *)
Lemma digits_acc_app s t acc : digits_acc acc (s ++ t) =
  match digits_acc acc s with Some v => digits_acc v t | None => None end.
Proof.
  revert acc. induction s as [|c s IH]; intros acc; [reflexivity|]. cbn [app digits_acc].
  destruct ((48 <=? b2n c) && (b2n c <? 58)); [apply IH|reflexivity].
Qed.
Lemma numeral_digits s v : numeral s v <-> s <> [] /\ digits_acc 0 s = Some v.
Proof.
  split.
  - induction 1 as [d H|s v d _ [IH1 IH2] H].
    + split; [discriminate|]. cbn [digits_acc]. rewrite b2n_n2b, N.mod_small by lia.
      replace (48 <=? 48 + d) with true by (symmetry; apply N.leb_le; lia).
      replace (48 + d <? 58) with true by (symmetry; apply N.ltb_lt; lia). cbn [andb]. f_equal. lia.
    + split; [intros E; apply app_eq_nil in E as [_ E]; discriminate|].
      rewrite digits_acc_app, IH2. cbn [digits_acc]. rewrite b2n_n2b, N.mod_small by lia.
      replace (48 <=? 48 + d) with true by (symmetry; apply N.leb_le; lia).
      replace (48 + d <? 58) with true by (symmetry; apply N.ltb_lt; lia). cbn [andb]. f_equal. lia.
  - intros [H1 H2]. revert v H1 H2. induction s as [|c s IH] using rev_ind; intros v H1 H2; [congruence|].
    rewrite digits_acc_app in H2. destruct (digits_acc 0 s) as [u|] eqn:E; [|discriminate].
    cbn [digits_acc] in H2. destruct ((48 <=? b2n c) && (b2n c <? 58)) eqn:D; [|discriminate].
    apply andb_prop in D as [D1 D2]. apply N.leb_le in D1. apply N.ltb_lt in D2.
    injection H2 as <-. replace c with (n2b (48 + (b2n c - 48)))
      by (replace (48 + (b2n c - 48)) with (b2n c) by lia; apply n2b_b2n).
    rewrite b2n_n2b, (N.mod_small (48 + _)) by lia. replace (48 + (b2n c - 48) - 48) with (b2n c - 48) by lia.
    destruct s as [|c' s].
    + cbn in E. injection E as <-. cbn [app]. replace (0 * 10 + (b2n c - 48)) with (b2n c - 48) by lia.
      apply Num1. lia.
    + apply NumS; [|lia]. apply IH; [discriminate|reflexivity].
Qed.
Lemma parse_uint_spec bits s v : parse_uint bits s = Some v <-> numeral s v /\ v < 2 ^ bits.
Proof.
  unfold parse_uint. rewrite numeral_digits. destruct s as [|c s]; [split; [discriminate|intros [[H _] _]; congruence]|].
  destruct (digits_acc 0 (c :: s)) as [u|]; [|split; [discriminate|intros [[_ H] _]; discriminate]].
  destruct (N.ltb_spec u (2 ^ bits)).
  - split; [intros [= ->]; split; [split; [discriminate|reflexivity]|assumption]|intros [[_ [= ->]] _]; reflexivity].
  - split; [discriminate|]. intros [[_ [= ->]] K]. lia.
Qed.

(** * Integers *)
Lemma big_bytes_bound n : n < 256 ^ N.of_nat (N.to_nat ((N.size n + 7) / 8)).
Proof.
  rewrite N2Nat.id. destruct (N.eq_0_gt_0_cases n) as [->|Hn]; [apply N.lt_0_1|].
  apply N.lt_le_trans with (2 ^ N.size n); [apply N.size_gt|].
  replace 256 with (2 ^ 8) by reflexivity. rewrite <- N.pow_mul_r. apply N.pow_le_mono_r; [discriminate|].
  pose proof (N.div_mod (N.size n + 7) 8 ltac:(discriminate)) as D.
  pose proof (N.mod_lt (N.size n + 7) 8 ltac:(discriminate)). lia.
Qed.
Lemma big_bytes_dec n : be_dec (big_bytes n) = n.
Proof. unfold big_bytes. apply be_dec_enc_small, big_bytes_bound. Qed.
Lemma big_bytes_len n k : n < 256 ^ N.of_nat k -> (length (big_bytes n) <= k)%nat.
Proof.
  intros H. unfold big_bytes. rewrite be_enc_length.
  destruct (N.eq_0_gt_0_cases n) as [->|Hn]; [cbn; lia|].
  assert (N.size n <= 8 * N.of_nat k) as S.
  { rewrite N.size_log2 by lia. replace 256 with (2 ^ 8) in H by reflexivity. rewrite <- N.pow_mul_r in H.
    apply N.log2_lt_pow2 in H; lia. }
  assert ((N.size n + 7) / 8 < N.of_nat k + 1); [|lia].
  apply N.div_lt_upper_bound; [discriminate|]. lia.
Qed.
Lemma big_bytes_lead n : 0 < n -> no_leading_zero (big_bytes n).
Proof.
  intros Hn. destruct (big_bytes n) as [|x r] eqn:E.
  - exfalso. pose proof (big_bytes_dec n) as D. rewrite E in D. cbn in D. lia.
  - exists x, r. split; [reflexivity|]. intros ->.
    assert (n = be_dec r) as D.
    { rewrite <- (big_bytes_dec n), E. reflexivity. }
    assert (length (big_bytes n) <= length r)%nat as L.
    { apply big_bytes_len. rewrite D at 1. apply be_dec_bound. }
    rewrite E in L. cbn in L. lia.
Qed.
Lemma big_bytes_long n k : 256 ^ N.of_nat k <= n -> (k < length (big_bytes n))%nat.
Proof.
  intros H. destruct (Nat.ltb_spec k (length (big_bytes n))) as [|L]; [assumption|].
  exfalso. pose proof (be_dec_bound (big_bytes n)) as B. rewrite big_bytes_dec in B. unfold lenN in B.
  assert (256 ^ N.of_nat (length (big_bytes n)) <= 256 ^ N.of_nat k) by (apply N.pow_le_mono_r; [discriminate|lia]).
  lia.
Qed.
Lemma be_dec_zeros k b : be_dec (repeat x00 k ++ b) = be_dec b.
Proof. induction k; cbn; [reflexivity|exact IHk]. Qed.
Lemma int_to_bytes_spec n k : n < 256 ^ N.of_nat k ->
  length (int_to_bytes n k) = k /\ be_dec (int_to_bytes n k) = n.
Proof.
  intros H. apply big_bytes_len in H. unfold int_to_bytes. destruct (Nat.ltb_spec (length (big_bytes n)) k).
  - rewrite app_length, repeat_length, be_dec_zeros, big_bytes_dec. split; [lia|reflexivity].
  - rewrite big_bytes_dec. split; [lia|reflexivity].
Qed.

(** * The decoders *)
Lemma rsa_defined b : exists o, public_key_rsa b = KOk o.
Proof.
  unfold public_key_rsa. destruct (Nat.ltb_spec (length b) (1 + 1 + 64)) as [|L]; [eauto|].
  unfold idx. destruct b as [|l0 [|l1 [|l2 b]]]; cbn [length] in L; try lia. cbn [nth_error].
  set (p := if b2n l0 =? 0 then _ else _).
  assert (snd p <= 3)%nat as K by (unfold p; destruct (b2n l0 =? 0); cbn; lia).
  destruct p as [explen keyoff]. cbn [snd] in K.
  destruct ((4 <? explen) || (explen =? 0)) eqn:E; [eauto|].
  apply orb_false_elim in E as [E1 E2]. apply N.ltb_ge in E1.
  destruct (nth_error (l0 :: l1 :: l2 :: b) keyoff) eqn:N1.
  2:{ apply nth_error_None in N1. cbn [length] in N1. lia. }
  destruct (b2n b0 =? 0); [eauto|].
  destruct ((_ <? 64)%nat || _) eqn:E; [eauto|].
  apply orb_false_elim in E as [E3 _]. apply Nat.ltb_ge in E3.
  destruct (nth_error (l0 :: l1 :: l2 :: b) (keyoff + N.to_nat explen)) eqn:N2.
  2:{ apply nth_error_None in N2. cbn [length] in *. lia. }
  destruct (b2n b1 =? 0); [eauto|].
  destruct (2 ^ 31 - 1 <? _); eauto.
Qed.

Definition rsa_layout (b : bytes) (n e : N) : Prop := exists hdr eb mb,
  b = hdr ++ eb ++ mb /\ (hdr = [n2b (lenN eb)] \/ hdr = [x00; x00; n2b (lenN eb)]) /\
  (length eb <= 4)%nat /\ no_leading_zero eb /\ be_dec eb < 2 ^ 31 /\
  (64 <= length mb <= 512)%nat /\ no_leading_zero mb /\ n = be_dec mb /\ e = be_dec eb.

Lemma b2n_0 c : b2n c = 0 <-> c = x00.
Proof. split; [intros H; apply b2n_inj; rewrite H; reflexivity|intros ->; reflexivity]. Qed.
Lemma skipn_nth {A} (l : list A) i x : nth_error l i = Some x -> skipn i l = x :: skipn (S i) l.
Proof.
  revert l. induction i; intros [|a l] H; try discriminate.
  - injection H as ->. reflexivity.
  - cbn [nth_error] in H. apply IHi in H. exact H.
Qed.


Lemma rsa_body (b : bytes) keyoff explen k0 m0 :
  nth_error b keyoff = Some k0 -> nth_error b (keyoff + explen) = Some m0 -> (0 < explen)%nat ->
  exists eb mb, skipn keyoff b = eb ++ mb /\ length eb = explen /\ eb = firstn explen (skipn keyoff b) /\
    mb = skipn (keyoff + explen) b /\ (exists r, eb = k0 :: r) /\ (exists r, mb = m0 :: r) /\
    length mb = (length b - (keyoff + explen))%nat.
Proof.
  intros H1 H2 H3. exists (firstn explen (skipn keyoff b)), (skipn (keyoff + explen) b).
  assert (skipn (keyoff + explen) b = skipn explen (skipn keyoff b)) as S.
  { clear. revert b. induction keyoff as [|n IH]; intros b; [reflexivity|]. destruct b; cbn; [rewrite skipn_nil; reflexivity|apply IH]. }
  repeat split.
  - rewrite S. symmetry. apply firstn_skipn.
  - assert (nth_error b (keyoff + explen) <> None) as K by congruence. apply nth_error_Some in K.
    rewrite firstn_length, skipn_length. lia.
  - rewrite (skipn_nth _ _ _ H1). destruct explen; [lia|]. cbn [firstn]. eauto.
  - rewrite (skipn_nth _ _ _ H2). eauto.
  - apply skipn_length.
Qed.

Lemma rsa_ok b n e : public_key_rsa b = KOk (Some (n, e)) <-> rsa_layout b n e.
Proof.
  split.
  - unfold public_key_rsa. destruct (Nat.ltb_spec (length b) (1 + 1 + 64)) as [|L]; [discriminate|].
    unfold idx. destruct b as [|l0 [|l1 [|l2 b]]]; cbn [length] in L; try lia. cbn [nth_error].
    set (p := if b2n l0 =? 0 then _ else _).
    set (B := l0 :: l1 :: l2 :: b).
    assert (fst p <= 4 -> exists hdr, length hdr = snd p /\ B = hdr ++ skipn (snd p) B /\
      (hdr = [n2b (fst p)] \/ hdr = [x00; x00; n2b (fst p)])) as K.
    { unfold p. destruct (N.eqb_spec (b2n l0) 0) as [Z|Z]; cbn [fst snd]; intros Hle.
      - exists [l0; l1; l2]. repeat split. right. apply b2n_0 in Z. subst l0.
        assert (b2n l1 = 0) as Z1 by lia. rewrite Z1. replace (0 * 256 + b2n l2) with (b2n l2) by lia. rewrite n2b_b2n.
        apply b2n_0 in Z1. subst. reflexivity.
      - exists [l0]. repeat split. left. rewrite n2b_b2n. reflexivity. }
    destruct p as [explen keyoff]. cbn [fst snd] in K.
    destruct ((4 <? explen) || (explen =? 0)) eqn:E; [discriminate|].
    apply orb_false_elim in E as [E1 E2]. apply N.ltb_ge in E1. apply N.eqb_neq in E2.
    destruct (K E1) as (hdr & Hl & Hb & Hh). clear K.
    destruct (nth_error B keyoff) as [k0|] eqn:N1; [|discriminate].
    destruct (N.eqb_spec (b2n k0) 0) as [|K0]; [discriminate|].
    destruct ((_ <? 64)%nat || _) eqn:E; [discriminate|].
    apply orb_false_elim in E as [E3 E4]. apply Nat.ltb_ge in E3. apply Nat.ltb_ge in E4.
    destruct (nth_error B (keyoff + N.to_nat explen)) as [m0|] eqn:N2; [|discriminate].
    destruct (N.eqb_spec (b2n m0) 0) as [|M0]; [discriminate|].
    destruct (rsa_body B keyoff (N.to_nat explen) k0 m0 N1 N2 ltac:(lia)) as (eb & mb & S1 & S2 & S3 & S4 & S5 & S6 & S7).
    rewrite <- S3, <- S4. destruct (N.ltb_spec (2 ^ 31 - 1) (be_dec eb)) as [|E5]; [discriminate|].
    intros [= <- <-].
    assert (explen = lenN eb) as EL by (unfold lenN; lia). rewrite EL in Hh.
    exists hdr, eb, mb. rewrite <- S1. repeat split.
    + exact Hb.
    + exact Hh.
    + lia.
    + destruct S5 as [r ->]. exists k0, r. split; [reflexivity|]. rewrite <- b2n_0. exact K0.
    + lia.
    + lia.
    + lia.
    + destruct S6 as [r ->]. exists m0, r. split; [reflexivity|]. rewrite <- b2n_0. exact M0.
  - intros (hdr & eb & mb & -> & Hh & L & (k0 & er & -> & K0) & He & Lm & (m0 & mr & -> & M0) & -> & ->).
    set (eb := k0 :: er) in *. set (mb := m0 :: mr) in *.
    assert (1 <= length eb)%nat as L1 by (unfold eb; cbn; lia).
    set (B := hdr ++ eb ++ mb).
    set (keyoff := length hdr).
    assert (skipn keyoff B = eb ++ mb) as S1 by apply skipn_app_exact.
    assert (skipn (keyoff + length eb) B = mb) as S2.
    { unfold B. rewrite app_assoc. replace (keyoff + length eb)%nat with (length (hdr ++ eb))
        by (rewrite app_length; reflexivity). apply skipn_app_exact. }
    assert (nth_error B keyoff = Some k0) as N1.
    { unfold B. rewrite nth_error_app2 by (unfold keyoff; lia). replace (keyoff - length hdr)%nat with 0%nat by (unfold keyoff; lia). reflexivity. }
    assert (nth_error B (keyoff + length eb) = Some m0) as N2.
    { unfold B. rewrite app_assoc, nth_error_app2 by (rewrite app_length; unfold keyoff; lia).
      rewrite app_length. replace (_ - _)%nat with 0%nat by (unfold keyoff; lia). reflexivity. }
    assert (length B = keyoff + length eb + length mb)%nat as LB by (unfold B; rewrite !app_length; unfold keyoff; lia).
    assert (1 <= keyoff)%nat as LH by (unfold keyoff; destruct Hh as [-> | ->]; cbn; lia).
    assert (lenN eb < 256) as LE by (unfold lenN; lia).
    unfold public_key_rsa. destruct (Nat.ltb_spec (length B) (1 + 1 + 64)) as [|LL]; [lia|].
    unfold idx.
    assert (exists l0 l1 l2 r, B = l0 :: l1 :: l2 :: r /\
      (if b2n l0 =? 0 then (b2n l1 * 256 + b2n l2, 3%nat) else (b2n l0, 1%nat)) = (lenN eb, keyoff)) as (l0 & l1 & l2 & r & EB & EP).
    { destruct Hh as [H | H]; unfold keyoff.
      - unfold B. rewrite H. unfold eb at 2. cbn [app].
        destruct (er ++ mb) as [|l2 r] eqn:EE; [apply (f_equal (@length byte)) in EE; rewrite app_length in EE; cbn in EE; lia|].
        exists (n2b (lenN eb)), k0, l2, r. split; [reflexivity|]. rewrite b2n_n2b, N.mod_small by assumption.
        destruct (N.eqb_spec (lenN eb) 0) as [Z|]; [unfold lenN in Z; lia|reflexivity].
      - unfold B. rewrite H. exists x00, x00, (n2b (lenN eb)), (eb ++ mb). split; [reflexivity|].
        cbn [N.eqb b2n Byte.to_N length]. rewrite b2n_n2b, N.mod_small by assumption. reflexivity. }
    assert (nth_error B 0 = Some l0 /\ nth_error B 1 = Some l1 /\ nth_error B 2 = Some l2) as (-> & -> & ->)
      by (rewrite EB; auto).
    rewrite EP. destruct (N.ltb_spec 4 (lenN eb)) as [Z|_]; [unfold lenN in Z; lia|].
    destruct (N.eqb_spec (lenN eb) 0) as [Z|_]; [unfold lenN in Z; lia|]. cbn [orb].
    rewrite N1. destruct (N.eqb_spec (b2n k0) 0) as [Z|_]; [apply b2n_0 in Z; contradiction|].
    unfold lenN. rewrite Nat2N.id, N2, S1, S2, firstn_app_exact.
    destruct (Nat.ltb_spec (length B - (keyoff + length eb)) 64); [lia|].
    destruct (Nat.ltb_spec 512 (length B - (keyoff + length eb))); [lia|]. cbn [orb].
    destruct (N.eqb_spec (b2n m0) 0) as [Z|_]; [apply b2n_0 in Z; contradiction|].
    destruct (N.ltb_spec (2 ^ 31 - 1) (be_dec eb)); [lia|]. reflexivity.
Qed.
