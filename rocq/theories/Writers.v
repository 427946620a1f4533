(** One Client that several goroutines write to, client.go:389-416, over TCP. Each
    goroutine calls Write for its messages one after the other. They take turns at
    every effect; a Write of the connection is one step, for the net package does
    not let another in before it is done. Simplified: setting the deadline and the
    field lastSentCounter are single steps, a data race on them is taken to do no
    worse than that. *)
From Verif Require Import Bytes Crypto Wire Server Keys Client ClientSeq Duplex.

Record writers := { w_progs : list (cprog (list wr_result)); w_cs : cst }.

Fixpoint put {A} (i : nat) (x : A) (l : list A) : list A :=
  match l, i with
  | [], _ => []
  | _ :: l, O => x :: l
  | y :: l, S i => y :: put i x l
  end.

(** The goroutine [i] does its next step. *)
Definition w_move (C : Crypto) (E : cenv) (x : writers) (i : nat) : option writers :=
  match nth_error (w_progs x) i with
  | Some (CDo e k) => let '(r, s) := cexec C E e (w_cs x) in Some {| w_progs := put i (k r) (w_progs x); w_cs := s |}
  | _ => None
  end.
Fixpoint w_run (C : Crypto) (E : cenv) (sched : list nat) (x : writers) : option writers :=
  match sched with
  | [] => Some x
  | i :: sched => match w_move C E x i with Some y => w_run C E sched y | None => None end
  end.
(** The goroutine [i] is to write the messages [nth i pss]. *)
Definition several (C : Crypto) (o : copts) (ses : csession) (pss : list (list bytes)) (s : cst) : writers :=
  {| w_progs := map (write_loop C o ses) pss; w_cs := s |}.
