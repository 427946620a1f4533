(** Vocabulary for the number of sessions. *)
From Verif Require Import Bytes SecretMgr.

(** A Store or Load at [t] or later. *)
Definition used_since (t : Z) (o : mop) : bool :=
  match o with MStore _ _ t' | MLoad _ t' => (t <=? t')%Z | MGc _ => false end.
Definition at_least (t : Z) (o : mop) : Prop :=
  match o with MStore _ _ t' | MLoad _ t' | MGc t' => (t <= t')%Z end.
