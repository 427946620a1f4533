(** /repo/internal/kdf/kdf.go *)
From Coq Require Import Strings.String.
From Verif Require Import Bytes Crypto.

Definition str (s : string) : bytes := list_byte_of_string s.

(** kdf.go:16 [Info] *)
Definition kdf_info : bytes := str "goe2ee/v1 aes-256-gcm".
(** kdf.go:19 [AESKeySize] *)
Definition aes_key_size : Z := 32.

(** crypto/hkdf.Key = Extract (HMAC keyed with the salt; a nil salt is 32 zero
    octets) then Expand: T(i) = HMAC(prk, T(i-1) || info || octet i). *)
Definition hkdf_extract (C : Crypto) (secret : bytes) : bytes :=
  hmac256 C (repeat x00 32) secret.

Fixpoint hkdf_blocks (C : Crypto) (prk info : bytes) (i : N) (prev : bytes) (count : nat) : bytes :=
  match count with
  | O => []
  | S c => let t := hmac256 C prk (prev ++ info ++ [n2b i]) in
           t ++ hkdf_blocks C prk info (i + 1) t c
  end.

Definition hkdf_expand (C : Crypto) (prk info : bytes) (len : nat) : bytes :=
  firstn len (hkdf_blocks C prk info 1 [] ((len + 31) / 32)).

(** kdf.go:24-33 [DeriveKey]: [None] is the error. hkdf.Key rejects lengths above
    255 times the hash size. *)
Definition derive_key (C : Crypto) (secret info : bytes) (len : Z) : option bytes :=
  if (len <=? 0)%Z then None
  else if (255 * 32 <? len)%Z then None
  else Some (hkdf_expand C (hkdf_extract C secret) info (Z.to_nat len)).

(** aes.NewCipher accepts 16, 24 or 32 octets; cipher.NewGCM never fails on AES.
    action_process.go:114-151: the server's AES key. *)
Definition new_gcm (C : Crypto) (secret : bytes) : option bytes :=
  match derive_key C secret kdf_info aes_key_size with
  | None => None
  | Some k =>
      if ((length k =? 16) || (length k =? 24) || (length k =? 32))%nat then Some k else None
  end.
