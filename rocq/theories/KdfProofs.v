From Verif Require Import Bytes BytesProofs Crypto Kdf Client ClientProofs ServerProps2 SpecKeys E2EProofs.

Lemma hkdf_blocks_len C (L : CryptoLaws C) prk info n : forall i prev,
  length (hkdf_blocks C prk info i prev n) = (32 * n)%nat.
Proof.
  induction n as [|n IH]; intros i prev; [reflexivity|]. cbn [hkdf_blocks]. cbv zeta.
  rewrite app_length, (hmac256_len _ L), IH. lia.
Qed.
Lemma derive_key_spec C (L : CryptoLaws C) secret info len :
  ((1 <= len <= 8160)%Z -> exists k, derive_key C secret info len = Some k /\ Z.of_nat (length k) = len) /\
  (~ (1 <= len <= 8160)%Z -> derive_key C secret info len = None).
Proof.
  unfold derive_key. split; intros H.
  - destruct (Z.leb_spec len 0); [lia|]. destruct (Z.ltb_spec (255 * 32) len); [lia|].
    eexists. split; [reflexivity|]. unfold hkdf_expand. rewrite firstn_length, (hkdf_blocks_len C L).
    pose proof (Nat.div_mod (Z.to_nat len + 31) 32 ltac:(lia)).
    pose proof (Nat.mod_upper_bound (Z.to_nat len + 31) 32 ltac:(lia)). lia.
  - destruct (Z.leb_spec len 0); [reflexivity|]. destruct (Z.ltb_spec (255 * 32) len); [reflexivity|lia].
Qed.
Lemma same_key C (L : CryptoLaws C) secret : exists k,
  client_gcm C secret = Some k /\ new_gcm C secret = Some k /\ length k = 32%nat.
Proof. destruct (new_gcm_total C L secret) as (k & H & Hl). exists k. rewrite client_server_gcm. auto. Qed.

Definition lt8 : list N := [0; 1; 2; 3; 4; 5; 6; 7].
Lemma lt8_in j : j < 8 -> In j lt8.
Proof.
  intros H. assert (j = 0 \/ j = 1 \/ j = 2 \/ j = 3 \/ j = 4 \/ j = 5 \/ j = 6 \/ j = 7) by lia.
  cbn. intuition.
Qed.
Lemma bits6 (b : byte) j : j < 8 -> N.testbit (b2n (n2b (N.lor (N.land (b2n b) 15) 64))) j =
  match fixed_bit 6 j with Some v => v | None => N.testbit (b2n b) j end.
Proof.
  intros H. apply lt8_in in H.
  assert (A : forallb (fun j => Bool.eqb (N.testbit (b2n (n2b (N.lor (N.land (b2n b) 15) 64))) j)
    (match fixed_bit 6 j with Some v => v | None => N.testbit (b2n b) j end)) lt8 = true) by (destruct b; reflexivity).
  rewrite forallb_forall in A. apply Bool.eqb_prop, A, H.
Qed.
Lemma bits8 (b : byte) j : j < 8 -> N.testbit (b2n (n2b (N.lor (N.land (b2n b) 63) 128))) j =
  match fixed_bit 8 j with Some v => v | None => N.testbit (b2n b) j end.
Proof.
  intros H. apply lt8_in in H.
  assert (A : forallb (fun j => Bool.eqb (N.testbit (b2n (n2b (N.lor (N.land (b2n b) 63) 128))) j)
    (match fixed_bit 8 j with Some v => v | None => N.testbit (b2n b) j end)) lt8 = true) by (destruct b; reflexivity).
  rewrite forallb_forall in A. apply Bool.eqb_prop, A, H.
Qed.
Lemma uuid_bits r : length r = 16%nat -> length (uuid_of r) = 16%nat /\
  forall i j, (i < 16)%nat -> j < 8 ->
  bit_of (uuid_of r) i j = match fixed_bit i j with Some v => v | None => bit_of r i j end.
Proof.
  intros H. split; [apply uuid_length, H|]. intros i j Hi Hj.
  do 17 (destruct r as [|? r]; [discriminate H || idtac|]); [|discriminate H]. clear H.
  unfold uuid_of, set_nth. cbn -[N.lor N.land n2b b2n]. unfold bit_of.
  do 16 (destruct i as [|i]; [cbn -[N.lor N.land n2b b2n N.testbit fixed_bit];
    first [apply bits6, Hj | apply bits8, Hj | reflexivity]|]). lia.
Qed.

(** * RFC 5869 *)
Fixpoint block_list (C : Crypto) (prk info : bytes) (i : N) (prev : bytes) (count : nat) : list bytes :=
  match count with
  | O => []
  | S c => let t := hmac256 C prk (prev ++ info ++ [n2b i]) in t :: block_list C prk info (i + 1) t c
  end.
Lemma block_list_concat C prk info n : forall i prev, hkdf_blocks C prk info i prev n = concat (block_list C prk info i prev n).
Proof. induction n as [|n IH]; intros i prev; cbn; [reflexivity|]. rewrite IH. reflexivity. Qed.
Lemma block_list_length C prk info n : forall i prev, length (block_list C prk info i prev n) = n.
Proof. induction n as [|n IH]; intros i prev; cbn; [reflexivity|]. rewrite IH. reflexivity. Qed.
Lemma block_list_nth C prk info n : forall i prev m, (m < n)%nat ->
  nth m (block_list C prk info i prev n) [] =
  hmac256 C prk ((match m with O => prev | S j => nth j (block_list C prk info i prev n) [] end) ++ info ++ [n2b (i + N.of_nat m)]).
Proof.
  induction n as [|n IH]; intros i prev m H; [lia|]. cbn [block_list]. cbv zeta. destruct m as [|m].
  - cbn [nth]. rewrite N.add_0_r. reflexivity.
  - cbn [nth]. rewrite IH by lia. replace (i + 1 + N.of_nat m) with (i + N.of_nat (S m)) by lia.
    destruct m; reflexivity.
Qed.
Lemma derive_rfc5869 C secret info len k : derive_key C secret info len = Some k ->
  exists ts, hkdf_blocks_of C (hmac256 C (repeat x00 32) secret) info ts /\
    (length ts <= 255)%nat /\ (len <= 32 * Z.of_nat (length ts) < len + 32)%Z /\ k = firstn (Z.to_nat len) (concat ts).
Proof.
  unfold derive_key. destruct (Z.leb_spec len 0); [discriminate|]. destruct (Z.ltb_spec (255 * 32) len); [discriminate|].
  intros E. injection E as <-. unfold hkdf_expand. rewrite block_list_concat.
  exists (block_list C (hkdf_extract C secret) info 1 [] ((Z.to_nat len + 31) / 32)). rewrite block_list_length.
  pose proof (Nat.div_mod (Z.to_nat len + 31) 32 ltac:(lia)).
  pose proof (Nat.mod_upper_bound (Z.to_nat len + 31) 32 ltac:(lia)).
  split; [|split; [|split; [lia|reflexivity]]].
  - intros i Hi. rewrite block_list_length in Hi. rewrite block_list_nth by exact Hi. rewrite N.add_comm. reflexivity.
  - lia.
Qed.
Lemma session_key C (L : CryptoLaws C) secret :
  let key := hmac256 C (hmac256 C (repeat x00 32) secret) (kdf_info ++ [x01]) in
  client_gcm C secret = Some key /\ new_gcm C secret = Some key.
Proof.
  cbv zeta. rewrite client_server_gcm. assert (A : new_gcm C secret = Some (hmac256 C (hmac256 C (repeat x00 32) secret) (kdf_info ++ [x01]))).
  { unfold new_gcm, derive_key, aes_key_size.
    change (32 <=? 0)%Z with false. change (255 * 32 <? 32)%Z with false. cbv iota.
    unfold hkdf_expand. change (Z.to_nat 32) with 32%nat. change ((32 + 31) / 32)%nat with 1%nat.
    cbn [hkdf_blocks]. rewrite app_nil_r, firstn_all2 by (rewrite (hmac256_len C L); lia).
    rewrite (hmac256_len C L). reflexivity. }
  auto.
Qed.
