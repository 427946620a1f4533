(** Vocabulary for the properties of DNSKEY records and DNS-over-HTTPS. *)
From Coq Require Import Strings.String.
From Verif Require Import Bytes Crypto Kdf.

(** Keys that a DNSKEY record can carry: RSA with an exponent below 2^31 and a
    modulus of 64 to 512 octets (RFC 3110), points of P-256 and P-384 as pairs
    of 32- resp. 48-octet coordinates (RFC 6605), 32 octets (RFC 8080). *)
Definition carries (pk : pubkey) : Prop :=
  match pk with
  | PkRSA n e => 0 < e /\ e < 2 ^ 31 /\ 2 ^ 504 <= n /\ n < 2 ^ 4096
  | PkECDSA P256 x y => x < 2 ^ 256 /\ y < 2 ^ 256
  | PkECDSA P384 x y => x < 2 ^ 384 /\ y < 2 ^ 384
  | PkEd25519 k => length k = 32%nat
  | _ => False
  end.

(** The numbers of a key are within what its type provides: coordinates within the
    field, a modulus of 64 to 512 octets and an exponent below 2^31. *)
Definition sized (pk : pubkey) : Prop :=
  match pk with
  | PkRSA n e => e < 2 ^ 31 /\ 2 ^ 504 <= n /\ n < 2 ^ 4096
  | PkECDSA P256 x y => x < 2 ^ 256 /\ y < 2 ^ 256
  | PkECDSA P384 x y => x < 2 ^ 384 /\ y < 2 ^ 384
  | _ => True
  end.

(** An interface value holding a nil pointer or nil slice. *)
Definition nil_key (pk : pubkey) : Prop :=
  pk = PkNilRSA \/ pk = PkNilECDSA \/ pk = PkNilEd25519.

Definition no_leading_zero (b : bytes) : Prop := exists x r, b = x :: r /\ x <> x00.

(** Key material as the RFCs lay it out. *)
Inductive material : N -> bytes -> pubkey -> Prop :=
| M_rsa alg hdr eb mb :
    In alg [5; 7; 8; 10] ->
    hdr = [n2b (lenN eb)] \/ hdr = [x00; x00; n2b (lenN eb)] ->
    (length eb <= 4)%nat -> no_leading_zero eb -> be_dec eb < 2 ^ 31 ->
    (64 <= length mb <= 512)%nat -> no_leading_zero mb ->
    material alg (hdr ++ eb ++ mb) (PkRSA (be_dec mb) (be_dec eb))
| M_p256 xb yb : length xb = 32%nat -> length yb = 32%nat ->
    material 13 (xb ++ yb) (PkECDSA P256 (be_dec xb) (be_dec yb))
| M_p384 xb yb : length xb = 48%nat -> length yb = 48%nat ->
    material 14 (xb ++ yb) (PkECDSA P384 (be_dec xb) (be_dec yb))
| M_ed25519 k : length k = 32%nat -> material 15 k (PkEd25519 k).

(** Decimal numerals, leading zeros allowed. *)
Inductive numeral : bytes -> N -> Prop :=
| Num1 d : d < 10 -> numeral [n2b (48 + d)] d
| NumS s v d : numeral s v -> d < 10 -> numeral (s ++ [n2b (48 + d)]) (v * 10 + d).

Definition spaceless (s : bytes) : Prop := ~ In x20 s.
(** A record of four space-separated fields. *)
Definition fields (s f p a k : bytes) : Prop :=
  s = f ++ [x20] ++ p ++ [x20] ++ a ++ [x20] ++ k /\
  spaceless f /\ spaceless p /\ spaceless a /\ spaceless k.

(** Base64 (RFC 4648, section 4): what a text denotes. The unused bits of the
    last digit are free. *)
Definition alphabet : bytes := str "ABCDEFGHIJKLMNOPQRSTUVWXYZabcdefghijklmnopqrstuvwxyz0123456789+/".
Definition digit (c : byte) (v : N) : Prop := nth_error alphabet (N.to_nat v) = Some c.
Inductive b64_denotes : bytes -> bytes -> Prop :=
| B64_nil : b64_denotes [] []
| B64_three a b c d va vb vc vd s t :
    digit a va -> digit b vb -> digit c vc -> digit d vd -> b64_denotes s t ->
    b64_denotes (a :: b :: c :: d :: s)
      (n2b (va * 4 + vb / 16) :: n2b (vb mod 16 * 16 + vc / 4) :: n2b (vc mod 4 * 64 + vd) :: t)
| B64_two a b c va vb vc : digit a va -> digit b vb -> digit c vc ->
    b64_denotes [a; b; c; x3d] [n2b (va * 4 + vb / 16); n2b (vb mod 16 * 16 + vc / 4)]
| B64_one a b va vb : digit a va -> digit b vb ->
    b64_denotes [a; b; x3d; x3d] [n2b (va * 4 + vb / 16)].
Definition line_break (c : byte) : bool := Byte.eqb c x0a || Byte.eqb c x0d.
(** Line breaks are ignored. *)
Definition encodes (s raw : bytes) : Prop := b64_denotes (filter (fun c => negb (line_break c)) s) raw.

Definition supported (alg : N) : Prop := In alg [5; 7; 8; 10; 13; 14; 15].
(** The record is a zone-signing key of a supported algorithm with decodable material. *)
Definition zsk (s : bytes) (alg : N) (raw : bytes) : Prop := exists f p a k,
  fields s f p a k /\ numeral f 256 /\ numeral p 3 /\ numeral a alg /\ supported alg /\ encodes k raw.
(** The record has other flags (a key-signing key, for instance). *)
Definition other_flags (s : bytes) : Prop := exists f p a k flags,
  fields s f p a k /\ numeral f flags /\ flags < 2 ^ 16 /\ flags <> 256.
