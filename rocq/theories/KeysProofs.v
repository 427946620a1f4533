From Verif Require Import Bytes Crypto Wire Server Keys.

(** What is signed verifies under the published key. *)
Lemma sign_verify C (L : CryptoLaws C) sk rnd h content sig alg pk :
  sign C sk rnd h content = KOk sig -> fetch_key C sk = KOk (alg, pk) ->
  verify_signature C pk h content sig = VOk true.
Proof.
  unfold sign, fetch_key, verify_signature. destruct (digest C h content) as [d|]; [|discriminate].
  destruct sk as [k|k|k|].
  - destruct (rsa_sign C k h d) as [s|] eqn:E; [|discriminate]. intros [= ->] [= <- <-].
    rewrite <- surjective_pairing, (rsa_ok _ L _ _ _ _ E). reflexivity.
  - destruct (ecdsa_sign C k d rnd) as [s|] eqn:E; [|discriminate]. intros [= ->].
    destruct (ecdsa_pub C k) as [[c x] y] eqn:Ep. intros [= <- <-]. rewrite <- Ep, (ecdsa_ok _ L _ _ _ _ E). reflexivity.
  - intros [= <-] [= <- <-]. rewrite (ed_pub_len _ L), (ed_ok _ L). reflexivity.
  - discriminate.
Qed.

Definition supported (h : hash) : Prop := h = SHA256 \/ h = SHA384 \/ h = SHA512.

Lemma sign_domain C sk rnd h content sig : sign C sk rnd h content = KOk sig ->
  supported h /\ (exists k, sk = SkRSA k \/ sk = SkECDSA k \/ sk = SkEd25519 k).
Proof.
  unfold sign, supported. destruct (digest C h content) as [d|] eqn:Ed; [|discriminate].
  assert (h = SHA256 \/ h = SHA384 \/ h = SHA512) by (destruct h; auto; discriminate).
  destruct sk as [k|k|k|]; [| | |discriminate]; intros _; split; eauto.
Qed.
Lemma sign_no_panic C sk rnd h content : sign C sk rnd h content <> KPanic.
Proof.
  unfold sign. destruct (digest C h content) as [d|]; [|discriminate].
  destruct sk as [k|k|k|]; try discriminate; [destruct (rsa_sign C k h d)|destruct (ecdsa_sign C k d rnd)]; discriminate.
Qed.
Lemma ed_always C k rnd h content : supported h -> exists sig, sign C (SkEd25519 k) rnd h content = KOk sig.
Proof. intros [->|[->| ->]]; eexists; reflexivity. Qed.
Lemma verify_unsupported C pk h content sig :
  ~ supported h \/ pk = PkOther \/ (exists k, pk = PkX25519 k) -> verify_signature C pk h content sig = VErr.
Proof.
  unfold verify_signature. intros H. destruct (digest C h content) eqn:Ed; [|reflexivity].
  destruct H as [H|[->|[k ->]]]; try reflexivity. exfalso. apply H. destruct h; unfold supported; auto; discriminate.
Qed.
