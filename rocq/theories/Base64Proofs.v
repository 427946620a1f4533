From Verif Require Import Bytes BytesProofs WireProofs Base64.

Definition b64_val (c : byte) : N :=
  let n := b2n c in
  if n =? 43 then 62 else if n =? 47 then 63
  else if n <? 58 then n - 48 + 52
  else if n <? 91 then n - 65
  else n - 97 + 26.

Lemma b64_val_char v : v < 64 -> b64_val (b64_char v) = v.
Proof.
  intros H. pose proof (sweep (fun v => b64_val (b64_char v) =? v) 64 ltac:(vm_compute; reflexivity) v H) as E.
  apply N.eqb_eq, E.
Qed.
Lemma b64_char_inj u v : u < 64 -> v < 64 -> b64_char u = b64_char v -> u = v.
Proof. intros Hu Hv E. rewrite <- (b64_val_char u Hu), <- (b64_val_char v Hv), E. reflexivity. Qed.

(** A 24-bit value is determined by its four 6-bit digits. *)
Lemma b64_digits v : v < 16777216 ->
  v = ((v / 262144 * 64 + v / 4096 mod 64) * 64 + v / 64 mod 64) * 64 + v mod 64 /\ v / 262144 < 64.
Proof.
  intros H. split; [|apply N.div_lt_upper_bound; [discriminate|exact H]].
  pose proof (N.div_mod v 64 ltac:(discriminate)) as E1.
  pose proof (N.div_mod (v / 64) 64 ltac:(discriminate)) as E2.
  rewrite N.div_div in E2 by discriminate. change (64 * 64) with 4096 in E2.
  pose proof (N.div_mod (v / 4096) 64 ltac:(discriminate)) as E3.
  rewrite N.div_div in E3 by discriminate. change (4096 * 64) with 262144 in E3.
  generalize dependent (v mod 64). generalize dependent (v / 64 mod 64). generalize dependent (v / 4096 mod 64).
  generalize dependent (v / 262144). generalize dependent (v / 4096). generalize dependent (v / 64). intros. lia.
Qed.
Lemma b64_group_inj v w : v < 16777216 -> w < 16777216 ->
  b64_char (v / 262144) = b64_char (w / 262144) ->
  b64_char (v / 4096 mod 64) = b64_char (w / 4096 mod 64) ->
  b64_char (v / 64 mod 64) = b64_char (w / 64 mod 64) ->
  v mod 64 = w mod 64 -> v = w.
Proof.
  intros Hv Hw E1 E2 E3 E4. destruct (b64_digits v Hv) as [Dv Lv], (b64_digits w Hw) as [Dw Lw].
  apply b64_char_inj in E1; [|assumption..].
  apply b64_char_inj in E2; [|apply N.mod_lt; discriminate..].
  apply b64_char_inj in E3; [|apply N.mod_lt; discriminate..].
  rewrite Dv, Dw, E1, E2, E3, E4. reflexivity.
Qed.
Lemma mod64_mul a : (a * 64) mod 64 = 0.
Proof. apply N.mod_mul. discriminate. Qed.

(** Injective on inputs of equal length (which is all that is used: digests). *)
Lemma base64_inj : forall n a b, (length a <= n)%nat -> length a = length b -> base64 a = base64 b -> a = b.
Proof.
  induction n as [|n IH]; intros a b Hn Hl E.
  - destruct a; [|cbn in Hn; lia]. destruct b; [reflexivity|discriminate].
  - destruct a as [|a1 [|a2 [|a3 a]]], b as [|b1 [|b2 [|b3 b]]]; try discriminate Hl; [reflexivity| | |].
    + cbn [base64] in E. pose proof (b2n_lt a1). pose proof (b2n_lt b1).
      injection E as E1 E2.
      assert (b2n a1 * 65536 = b2n b1 * 65536) as K.
      { assert (D : forall x, x * 65536 / 64 mod 64 = 0).
        { intros x. replace (x * 65536) with (x * 16 * 64 * 64) by lia. rewrite N.div_mul by discriminate.
          apply mod64_mul. }
        apply b64_group_inj; [lia|lia|exact E1|exact E2|rewrite !D; reflexivity|].
        replace 65536 with (1024 * 64) by reflexivity. rewrite !N.mul_assoc, !mod64_mul. reflexivity. }
      f_equal. apply b2n_inj. lia.
    + cbn [base64] in E. pose proof (b2n_lt a1). pose proof (b2n_lt b1).
      pose proof (b2n_lt a2). pose proof (b2n_lt b2).
      injection E as E1 E2 E3.
      assert (b2n a1 * 65536 + b2n a2 * 256 = b2n b1 * 65536 + b2n b2 * 256) as K.
      { apply b64_group_inj; [lia|lia|assumption|assumption|assumption|].
        replace (b2n a1 * 65536 + b2n a2 * 256) with ((b2n a1 * 1024 + b2n a2 * 4) * 64) by lia.
        replace (b2n b1 * 65536 + b2n b2 * 256) with ((b2n b1 * 1024 + b2n b2 * 4) * 64) by lia.
        rewrite !mod64_mul. reflexivity. }
      assert (H3 : b2n a1 = b2n b1) by lia. assert (H4 : b2n a2 = b2n b2) by lia.
      apply b2n_inj in H3. apply b2n_inj in H4. congruence.
    + cbn [base64] in E. pose proof (b2n_lt a1). pose proof (b2n_lt b1).
      pose proof (b2n_lt a2). pose proof (b2n_lt b2). pose proof (b2n_lt a3). pose proof (b2n_lt b3).
      injection E as E1 E2 E3 E4 E5.
      apply b64_char_inj in E4; [|apply N.mod_lt; discriminate..].
      apply b64_group_inj in E4; [|lia|lia|assumption..].
      assert (H5 : b2n a1 = b2n b1) by lia. assert (H6 : b2n a2 = b2n b2) by lia.
      assert (H7 : b2n a3 = b2n b3) by lia.
      apply b2n_inj in H5. apply b2n_inj in H6. apply b2n_inj in H7. subst.
      do 3 f_equal. apply IH; [cbn [length] in Hn; lia|injection Hl; auto|exact E5].
Qed.
Lemma base64_inj_len a b : length a = length b -> base64 a = base64 b -> a = b.
Proof. intros. apply (base64_inj (length a)); auto. Qed.
