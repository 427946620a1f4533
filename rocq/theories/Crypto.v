(** Cryptographic primitives used by /repo, as a record of functions.

    The standard library's primitives are not modelled: a value of [Crypto] is
    any implementation, [CryptoLaws] the functional behaviour relied upon. No
    law says anything about secrecy, unforgeability or collision resistance. *)
From Verif Require Import Bytes.

(** crypto.Hash values used in /repo; [HOther] stands for any other value. *)
Inductive hash := SHA256 | SHA384 | SHA512 | HOther (n : N).

Inductive curve := P256 | P384 | P521 | CurveOther.

(** Dynamic values of a crypto.PublicKey interface. The [Nil…] cases are the
    typed nil pointers (or nil slice) that /repo/internal/dns/dnssec can return:
    an interface holding them is not equal to nil. *)
Inductive pubkey :=
| PkX25519 (k : bytes)                 (* *ecdh.PublicKey on X25519 *)
| PkRSA (n e : N)                      (* *rsa.PublicKey *)
| PkECDSA (c : curve) (x y : N)        (* *ecdsa.PublicKey *)
| PkEd25519 (k : bytes)                (* ed25519.PublicKey *)
| PkNilRSA | PkNilECDSA | PkNilEd25519
| PkOther.

(** Dynamic values of a crypto.PrivateKey interface (opaque key material). *)
Inductive privkey :=
| SkRSA (k : bytes) | SkECDSA (k : bytes) | SkEd25519 (k : bytes) | SkOther.

Record Crypto := {
  (* crypto/ecdh X25519 *)
  x_pub : bytes -> bytes;                    (* private key -> public key *)
  x_dh : bytes -> bytes -> option bytes;     (* ECDH; None: low order point *)
  (* crypto/x509: everything but the canonical X25519 encoding *)
  pkix_other : bytes -> option pubkey;
  pkix_enc_other : pubkey -> option bytes;
  (* hashes and HMAC *)
  sha256 : bytes -> bytes;
  sha384 : bytes -> bytes;
  sha512 : bytes -> bytes;
  hmac256 : bytes -> bytes -> bytes;         (* key, message *)
  (* AES-256-GCM with a 12 octet nonce and no additional data *)
  gcm_seal : bytes -> bytes -> bytes -> bytes;         (* key nonce plaintext *)
  gcm_open : bytes -> bytes -> bytes -> option bytes;  (* key nonce ciphertext *)
  (* signatures; the last argument of ecdsa_sign is the randomness *)
  rsa_pub : bytes -> N * N;
  ecdsa_pub : bytes -> curve * N * N;
  ed_pub : bytes -> bytes;
  rsa_sign : bytes -> hash -> bytes -> option bytes;
  ecdsa_sign : bytes -> bytes -> bytes -> option bytes;
  ed_sign : bytes -> bytes -> bytes;
  rsa_verify : N * N -> hash -> bytes -> bytes -> bool;
  ecdsa_verify : curve * N * N -> bytes -> bytes -> bool;
  ed_verify : bytes -> bytes -> bytes -> bool
}.

(** gcm.NonceSize() of cipher.NewGCM: 12. *)
Definition gcm_nonce_size : N := 12.

Record CryptoLaws (C : Crypto) : Prop := {
  x_pub_len : forall sk, length (x_pub C sk) = 32%nat;
  x_dh_comm : forall a b, x_dh C a (x_pub C b) = x_dh C b (x_pub C a);
  gcm_open_seal : forall k n p, gcm_open C k n (gcm_seal C k n p) = Some p;
  gcm_open_inv : forall k n c p, gcm_open C k n c = Some p -> c = gcm_seal C k n p;
  gcm_seal_len : forall k n p, lenN (gcm_seal C k n p) = lenN p + 16;
  sha256_len : forall m, length (sha256 C m) = 32%nat;
  hmac256_len : forall k m, length (hmac256 C k m) = 32%nat;
  rsa_ok : forall sk h d s, rsa_sign C sk h d = Some s -> rsa_verify C (rsa_pub C sk) h d s = true;
  ecdsa_ok : forall sk d r s, ecdsa_sign C sk d r = Some s -> ecdsa_verify C (ecdsa_pub C sk) d s = true;
  ed_ok : forall sk d, ed_verify C (ed_pub C sk) d (ed_sign C sk d) = true;
  ed_pub_len : forall sk, length (ed_pub C sk) = 32%nat;
  pkix_other_len : forall b k, pkix_other C b = Some (PkX25519 k) -> length k = 32%nat
}.

(** DER prefix of a PKIX X25519 public key (RFC 8410): x509.MarshalPKIXPublicKey
    of an X25519 *ecdh.PublicKey is this prefix and the 32 octets of the key. *)
Definition x25519_prefix : bytes :=
  [x30; x2a; x30; x05; x06; x03; x2b; x65; x6e; x03; x21; x00].

Definition pkix_x25519 (k : bytes) : bytes := x25519_prefix ++ k.

(** x509.ParsePKIXPublicKey: the canonical X25519 encoding is recognised here,
    all other inputs (other key types, non-canonical DER, garbage) by
    [pkix_other]. *)
Definition pkix_parse (C : Crypto) (b : bytes) : option pubkey :=
  if (length b =? 44)%nat && bytes_eqb (firstn 12 b) x25519_prefix
  then Some (PkX25519 (skipn 12 b))
  else pkix_other C b.

(** x509.MarshalPKIXPublicKey. *)
Definition pkix_marshal (C : Crypto) (p : pubkey) : option bytes :=
  match p with
  | PkX25519 k => Some (pkix_x25519 k)
  | PkNilRSA | PkNilECDSA | PkNilEd25519 | PkOther => None
  | _ => pkix_enc_other C p
  end.
