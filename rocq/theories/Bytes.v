(** Octets, byte strings and fixed-width big-endian integers. *)
From Coq Require Export List NArith ZArith Lia Bool Strings.Byte.
Export ListNotations.

Open Scope N_scope.

Definition bytes := list byte.

(** Octet to number and back. [n2b] wraps modulo 256 as a Go [uint8]
    conversion does. *)
Definition b2n (b : byte) : N := Byte.to_N b.
Definition n2b (n : N) : byte :=
  match Byte.of_N (n mod 256) with Some b => b | None => x00 end.

Definition lenN {A} (l : list A) : N := N.of_nat (length l).

(** encoding/binary BigEndian.AppendUint32/AppendUint64/PutUint64: the low [k]
    octets of [n], most significant first (wraps modulo 256^k). *)
Fixpoint be_enc (k : nat) (n : N) : bytes :=
  match k with
  | O => []
  | S k' => be_enc k' (n / 256) ++ [n2b n]
  end.

(** encoding/binary BigEndian.Uint32/Uint64 (and math/big SetBytes). *)
Fixpoint be_dec_acc (acc : N) (l : bytes) : N :=
  match l with
  | [] => acc
  | b :: l' => be_dec_acc (acc * 256 + b2n b) l'
  end.
Definition be_dec (l : bytes) : N := be_dec_acc 0 l.

Definition two32 : N := 2 ^ 32.
Definition two63 : N := 2 ^ 63.
Definition two64 : N := 2 ^ 64.

(** Take and drop with an [N] count, total: callers compare with [lenN]. *)
Definition takeN {A} (n : N) (l : list A) : list A :=
  if lenN l <=? n then l else firstn (N.to_nat n) l.
Definition dropN {A} (n : N) (l : list A) : list A :=
  if lenN l <=? n then [] else skipn (N.to_nat n) l.

Definition bytes_eqb (a b : bytes) : bool :=
  if list_eq_dec Byte.byte_eq_dec a b then true else false.
