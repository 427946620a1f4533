(** Vocabulary for deadlines. *)
From Verif Require Import Bytes Parser Crypto Wire Replay Server ServerSeq Timed.

(** A connection on which no deadline was set yet. *)
Definition fresh_conn (t : tio) : Prop := t_rd t = None /\ t_wd t = None.

(** Before a timeout (0: none) counted from [start]. *)
Definition within (timeout start t : N) : Prop := timeout = 0 \/ t < start + timeout.

(** Every request of the connection is read, handled and answered before the
    timeouts counted from the moment the server began to wait for it. *)
Fixpoint punctual (C : Crypto) (E : senv) (delay : nat -> N) (rto wto : N) (fuel : nat) (t : tio) (s : sst) : Prop :=
  match fuel with
  | O => True
  | S f =>
      let '(r, (t', s')) := tbody C E delay rto wto t s in
      within rto (t_now t) (t_now t') /\ within wto (t_now t) (t_now t') /\
      (r = Some true -> punctual C E delay rto wto f t' s')
  end.

(** Time spent on [k] effects, the first one being number [n]. *)
Fixpoint spent (delay : nat -> N) (n k : nat) : N :=
  match k with O => 0 | S k' => delay n + spent delay (S n) k' end.

(** What was taken from the input [inp], of octets that arrive at the times [arr],
    when [inp'] and [arr'] are left: only octets whose times satisfy [P]. *)
Definition taken (P : N -> Prop) (inp inp' : bytes) (arr arr' : list N) : Prop :=
  exists octets times, inp = octets ++ inp' /\ arr = times ++ arr' /\ length times = length octets /\ Forall P times.
