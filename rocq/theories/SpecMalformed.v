(** What the rest of a request must look like to be one, by the published layout. *)
From Verif Require Import Bytes Crypto Wire.

(** After the first octet of a Process request. *)
Definition process_body (i : bytes) : Prop :=
  exists fb id ctr msg rest, i = fb :: id ++ ctr ++ be_enc 8 (lenN msg) ++ msg ++ rest /\
    length id = 16%nat /\ length ctr = 8%nat /\ lenN msg <= 2 ^ 30.
(** After the first octet of a Setup request. *)
Definition setup_body (C : Crypto) (i : bytes) : Prop :=
  exists id raw pub rest, i = id ++ be_enc 4 (lenN raw) ++ raw ++ rest /\
    length id = 16%nat /\ lenN raw <= 2 ^ 16 /\ pkix_parse C raw = Some (PkX25519 pub).
