(** Vocabulary for resources. *)
From Verif Require Import Bytes Resources.

(** Sockets are numbered in the order they are opened. *)
Definition numbered (s : dst) : Prop := forall k, In k (d_open s) -> (k < d_next s)%nat.
(** So are collectors. *)
Definition gnum (s : gst) : Prop := forall k, In k (g_running s) -> (k < g_next s)%nat.
(** Any number of dials in a row. *)
Fixpoint dials (E : denv) (p : dprog (option conn_of)) (n : nat) (s : dst) : dst :=
  match n with O => s | S n' => dials E p n' (snd (drun E p s)) end.
