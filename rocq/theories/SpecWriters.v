(** Vocabulary for a client that several goroutines write to. *)
From Verif Require Import Bytes.

(** Messages in the order in which they were sent, each with the goroutine that
    wrote it and its counter. *)
Definition sent_log := list (nat * (N * bytes)).
Definition log_ctr (e : nat * (N * bytes)) : N := fst (snd e).
Definition log_msg (e : nat * (N * bytes)) : bytes := snd (snd e).
(** The messages of one goroutine. *)
Definition written_by (i : nat) (log : sent_log) : list bytes :=
  map log_msg (filter (fun e => Nat.eqb (fst e) i) log).
(** All messages of all goroutines. *)
Definition total (pss : list (list bytes)) : N := lenN (concat pss).
(** The log has the messages of each goroutine in their order, and nothing else. *)
Definition interleaves (pss : list (list bytes)) (log : sent_log) : Prop :=
  forall i, written_by i log = nth i pss [].
