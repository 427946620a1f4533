(** Vocabulary for answers of a UDP server in time. *)
From Verif Require Import Bytes UdpDeadline.

(** Lost although it was written within the timeout, counted from when its own
    goroutine read the clock. *)
Definition lost_early (wto : N) (log : list uev) : Prop :=
  exists i t t', In (UTook i t) log /\ In (ULost i t') log /\ t' < t + wto.
(** No time passes between reading the clock and setting the deadline. *)
Inductive prompt (wto : N) : ust -> Prop :=
| pr_init : prompt wto ust0
| pr_step s s' : prompt wto s -> ustep wto s s' ->
    (u_now s < u_now s' -> forall i t, u_pc s i <> URef t) -> prompt wto s'.
