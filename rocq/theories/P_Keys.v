(** Properties C51, C56, C57: signatures, key derivation, session ids. *)
From Coq Require Import Strings.String.
From Verif Require Import Bytes Crypto Kdf Wire Toy Server Keys Client SpecClient SpecKeys KeysProofs ClientProofs KdfProofs ClientExamples.

Theorem C51_signed_verifies : forall C, CryptoLaws C -> forall sk rnd h content sig alg pk,
  sign C sk rnd h content = KOk sig -> fetch_key C sk = KOk (alg, pk) ->
  verify_signature C pk h content sig = VOk true.
Proof. exact sign_verify. Qed.
Print Assumptions C51_signed_verifies.
(** Signing answers only for the three hashes and the three key types, and never panics. *)
Theorem C51_sign_domain : forall C sk rnd h content sig, sign C sk rnd h content = KOk sig ->
  (h = SHA256 \/ h = SHA384 \/ h = SHA512) /\ (exists k, sk = SkRSA k \/ sk = SkECDSA k \/ sk = SkEd25519 k).
Proof. exact sign_domain. Qed.
Print Assumptions C51_sign_domain.
Theorem C51_sign_no_panic : forall C sk rnd h content, sign C sk rnd h content <> KPanic.
Proof. exact sign_no_panic. Qed.
Print Assumptions C51_sign_no_panic.
Theorem C51_ed25519_signs : forall C k rnd h content, (h = SHA256 \/ h = SHA384 \/ h = SHA512) ->
  exists sig, sign C (SkEd25519 k) rnd h content = KOk sig.
Proof. exact ed_always. Qed.
Print Assumptions C51_ed25519_signs.
(** Verification says yes exactly for a signature valid under the key over the
    digest with the named hash; anything unsupported is an error. *)
Theorem C51_verify_exact : forall C pk h content sig, verify_signature C pk h content sig = VOk true <->
  ((h = SHA256 \/ h = SHA384 \/ h = SHA512) /\ good_signature C pk h content sig).
Proof. exact verify_true_iff. Qed.
Print Assumptions C51_verify_exact.
Theorem C51_verify_unsupported : forall C pk h content sig,
  ~ (h = SHA256 \/ h = SHA384 \/ h = SHA512) \/ pk = PkOther \/ (exists k, pk = PkX25519 k) ->
  verify_signature C pk h content sig = VErr.
Proof. exact verify_unsupported. Qed.
Print Assumptions C51_verify_unsupported.
Example C51_example :
  (exists sig, sign toy (SkRSA [x09]) [] SHA384 [x41] = KOk sig /\
     verify_signature toy (PkRSA 9 3) SHA384 [x41] sig = VOk true /\
     verify_signature toy (PkRSA 9 3) SHA384 [x42] sig = VOk false) /\
  fetch_key toy (SkECDSA [x09]) = KOk (2, PkECDSA P256 9 0) /\
  sign toy ex_sign_key [] (HOther 9) [x41] = KErr.
Proof. split; [eexists; vm_compute; auto|vm_compute; auto]. Qed.

Theorem C56_derive_key : forall C, CryptoLaws C -> forall secret info len,
  ((1 <= len <= 8160)%Z -> exists k, derive_key C secret info len = Some k /\ Z.of_nat (length k) = len) /\
  (~ (1 <= len <= 8160)%Z -> derive_key C secret info len = None).
Proof. exact derive_key_spec. Qed.
Print Assumptions C56_derive_key.
Theorem C56_same_key : forall C, CryptoLaws C -> forall secret, exists k,
  client_gcm C secret = Some k /\ new_gcm C secret = Some k /\ length k = 32%nat.
Proof. exact same_key. Qed.
Print Assumptions C56_same_key.
(** The key is that of RFC 5869 with SHA-256, no salt and the given info. *)
Theorem C56_rfc5869 : forall C secret info len k, derive_key C secret info len = Some k ->
  exists ts, hkdf_blocks_of C (hmac256 C (repeat x00 32) secret) info ts /\
    (length ts <= 255)%nat /\ (len <= 32 * Z.of_nat (length ts) < len + 32)%Z /\ k = firstn (Z.to_nat len) (concat ts).
Proof. exact derive_rfc5869. Qed.
Print Assumptions C56_rfc5869.
(** The key of a session, on both sides. *)
Theorem C56_session_key : forall C, CryptoLaws C -> forall secret,
  let key := hmac256 C (hmac256 C (repeat x00 32) secret) (list_byte_of_string "goe2ee/v1 aes-256-gcm" ++ [x01]) in
  client_gcm C secret = Some key /\ new_gcm C secret = Some key.
Proof. exact session_key. Qed.
Print Assumptions C56_session_key.
Example C56_example :
  option_map (@length byte) (derive_key toy [x01] [x02] 33) = Some 33%nat /\ derive_key toy [x01] [x02] (-1) = None.
Proof. vm_compute. auto. Qed.

Theorem C57_uuid_v4 : forall r, length r = 16%nat -> length (uuid_of r) = 16%nat /\
  forall i j, (i < 16)%nat -> j < 8 ->
  bit_of (uuid_of r) i j = match fixed_bit i j with Some v => v | None => bit_of r i j end.
Proof. exact uuid_bits. Qed.
Print Assumptions C57_uuid_v4.
Example C57_example :
  uuid_of (repeat xff 16) = repeat xff 6 ++ [x4f; xff; xbf] ++ repeat xff 7 /\
  uuid_of (repeat x00 16) = repeat x00 6 ++ [x40; x00; x80] ++ repeat x00 7.
Proof. vm_compute. auto. Qed.
