(** Vocabulary for key derivation, identifiers and signatures. *)
From Verif Require Import Bytes Crypto.

(** Bit [j] (0 is the least significant) of octet [i]. *)
Definition bit_of (l : bytes) (i : nat) (j : N) : bool := N.testbit (b2n (nth i l x00)) j.

(** RFC 4122 section 4.4: version 4 in the four most significant bits of octet 6,
    variant 10 in the two most significant bits of octet 8. *)
Definition fixed_bit (i : nat) (j : N) : option bool :=
  match i with
  | 6%nat => if j <? 4 then None else Some (j =? 6)
  | 8%nat => if j <? 6 then None else Some (j =? 7)
  | _ => None
  end.

(** RFC 5869 section 2.3: T(1) = HMAC(prk, info || 1), T(i+1) = HMAC(prk, T(i) || info || i+1).
    [ts] are the blocks from T(1) on. *)
Definition hkdf_blocks_of (C : Crypto) (prk info : bytes) (ts : list bytes) : Prop :=
  forall i, (i < length ts)%nat ->
  nth i ts [] = hmac256 C prk ((match i with O => [] | S j => nth j ts [] end) ++ info ++ [n2b (N.of_nat i + 1)]).
