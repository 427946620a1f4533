(** A toy implementation of [Crypto] satisfying every law: used only to show
    that the hypotheses of the theorems can be met (and for counterexamples). *)
From Verif Require Import Bytes BytesProofs Crypto.

Definition pad32 (b : bytes) : bytes := be_enc 32 (be_dec b).

Fixpoint xadd (a b : bytes) : bytes :=
  match a, b with
  | x :: a', y :: b' => n2b (b2n x + b2n y) :: xadd a' b'
  | _, _ => []
  end.

Definition toy_tag (k n p : bytes) : bytes := be_enc 16 (be_dec k + 3 * be_dec n + 7 * be_dec (x01 :: p)).

Definition toy : Crypto := {|
  x_pub := pad32;
  x_dh := fun a p => if bytes_eqb p (repeat x00 32) then None else
                     if bytes_eqb (pad32 a) (repeat x00 32) then None
                     else Some (xadd (pad32 a) p);
  pkix_other := fun b => match b with x01 :: k => Some (PkEd25519 k) | _ => None end;
  pkix_enc_other := fun p => match p with PkEd25519 k => Some (x01 :: k) | _ => None end;
  sha256 := fun m => be_enc 32 (be_dec (x01 :: m));
  sha384 := fun m => be_enc 48 (be_dec (x01 :: m));
  sha512 := fun m => be_enc 64 (be_dec (x01 :: m));
  hmac256 := fun k m => be_enc 32 (3 * be_dec (x01 :: k) + be_dec (x01 :: m));
  gcm_seal := fun k n p => p ++ toy_tag k n p;
  gcm_open := fun k n c =>
    let p := firstn (length c - 16) c in
    if bytes_eqb c (p ++ toy_tag k n p) then Some p else None;
  rsa_pub := fun sk => (be_dec sk, 3);
  ecdsa_pub := fun sk => (P256, be_dec sk, 0);
  ed_pub := pad32;
  rsa_sign := fun sk h d => Some (be_enc 32 (be_dec sk) ++ d);
  ecdsa_sign := fun sk d r => Some (be_enc 32 (be_dec sk) ++ d);
  ed_sign := fun sk d => pad32 sk ++ d;
  rsa_verify := fun p h d s => bytes_eqb s (be_enc 32 (fst p) ++ d);
  ecdsa_verify := fun p d s => bytes_eqb s (be_enc 32 (snd (fst p)) ++ d);
  ed_verify := fun p d s => bytes_eqb s (p ++ d)
|}.

Lemma xadd_comm a b : length a = length b -> xadd a b = xadd b a.
Proof.
  revert b; induction a as [|x a IH]; intros [|y b] H; try discriminate; [reflexivity|].
  cbn. rewrite N.add_comm, IH by (injection H; auto). reflexivity.
Qed.

Lemma toy_laws : CryptoLaws toy.
Proof.
  constructor; cbn [toy x_pub x_dh gcm_open gcm_seal sha256 hmac256 rsa_sign rsa_verify rsa_pub
                    ecdsa_sign ecdsa_verify ecdsa_pub ed_verify ed_sign ed_pub fst snd].
  - intros; apply be_enc_length.
  - intros a b.
    destruct (bytes_eqb (pad32 b) (repeat x00 32)), (bytes_eqb (pad32 a) (repeat x00 32)); try reflexivity.
    f_equal. apply xadd_comm. unfold pad32; rewrite !be_enc_length; reflexivity.
  - intros k n p. cbv zeta. rewrite app_length.
    assert (L : length (toy_tag k n p) = 16%nat) by apply be_enc_length. rewrite L.
    replace (length p + 16 - 16)%nat with (length p) by lia.
    rewrite firstn_app_exact, bytes_eqb_refl. reflexivity.
  - intros k n c p. cbv zeta.
    destruct (bytes_eqb_spec c (firstn (length c - 16) c ++ toy_tag k n (firstn (length c - 16) c))) as [E|E];
      [|discriminate].
    intros [= H]. rewrite H in E. exact E.
  - intros. unfold toy_tag. rewrite lenN_app, be_enc_lenN. reflexivity.
  - intros; apply be_enc_length.
  - intros; apply be_enc_length.
  - intros sk h d s [= <-]. apply bytes_eqb_refl.
  - intros sk d r s [= <-]. apply bytes_eqb_refl.
  - intros. apply bytes_eqb_refl.
  - intros; apply be_enc_length.
  - intros b k. cbn. destruct b as [|[] b]; discriminate.
Qed.
