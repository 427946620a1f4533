(** Vocabulary for the attacker of [Dolev]. *)
From Verif Require Import Bytes Parser Crypto Wire Dolev.

(** Client [c] called [s] with the right key, and accepted the handshake at a time
    when the attacker did not have that key. What leaks later does not matter. *)
Definition trusted (tr : list event) (c i j s : nat) (id : bytes) : Prop :=
  exists post w pre, tr = post ++ EAccept c i j w :: pre /\ In (EDial c i id s s) pre /\ ~ In (ELeak s) pre.

(** All that is before an event. *)
Definition before (tr : list event) (a b : event) : Prop :=
  exists post pre, tr = post ++ b :: pre /\ In a pre.
