(** /repo/key/key.go and /repo/key/server_manager.go. *)
From Verif Require Import Bytes Crypto Wire Server.

(** Digest of the supported hash functions (key.go:21-36, server_manager.go:115-128);
    [None]: unsupported hash type. *)
Definition digest (C : Crypto) (h : hash) (content : bytes) : option bytes :=
  match h with
  | SHA256 => Some (sha256 C content)
  | SHA384 => Some (sha384 C content)
  | SHA512 => Some (sha512 C content)
  | HOther _ => None
  end.

Inductive verdict := VOk (valid : bool) | VErr | VPanic.

(** key.go:20-54 [PublicKey.VerifySignature]. The standard library dereferences
    nil RSA and ECDSA keys, and ed25519.Verify panics on a key of the wrong
    length (a nil slice in particular). *)
Definition verify_signature (C : Crypto) (pk : pubkey) (h : hash) (content sig : bytes) : verdict :=
  match digest C h content with
  | None => VErr
  | Some d =>
      match pk with
      | PkRSA n e => VOk (rsa_verify C (n, e) h d sig)
      | PkECDSA c x y => VOk (ecdsa_verify C (c, x, y) d sig)
      | PkEd25519 k => if (length k =? 32)%nat then VOk (ed_verify C k d sig) else VPanic
      | PkNilRSA | PkNilECDSA | PkNilEd25519 => VPanic
      | PkX25519 _ | PkOther => VErr
      end
  end.

(** server_manager.go:94-111 [FetchKey] *)
Definition fetch_key (C : Crypto) (sk : privkey) : kres (N * pubkey) :=
  match sk with
  | SkRSA k => KOk (alg_rsa, PkRSA (fst (rsa_pub C k)) (snd (rsa_pub C k)))
  | SkECDSA k => let '(c, x, y) := ecdsa_pub C k in KOk (alg_ecdsa, PkECDSA c x y)
  | SkEd25519 k => KOk (alg_ed25519, PkEd25519 (ed_pub C k))
  | SkOther => KErr
  end.

(** server_manager.go:114-143 [Sign]; [rnd] is the randomness of ECDSA. *)
Definition sign (C : Crypto) (sk : privkey) (rnd : bytes) (h : hash) (content : bytes) : kres bytes :=
  match digest C h content with
  | None => KErr
  | Some d =>
      match sk with
      | SkRSA k => match rsa_sign C k h d with Some s => KOk s | None => KErr end
      | SkECDSA k => match ecdsa_sign C k d rnd with Some s => KOk s | None => KErr end
      | SkEd25519 k => KOk (ed_sign C k d)
      | SkOther => KErr
      end
  end.
