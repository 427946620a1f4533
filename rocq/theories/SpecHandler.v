(** Vocabulary for C184. *)
From Verif Require Import Bytes Server Handler.

(** What a handler read and what it wrote. *)
Definition got (t : list hev) : bytes := concat (map (fun e => match e with EGot _ b _ => b | _ => [] end) t).
Definition written (t : list hev) : bytes := concat (map (fun e => match e with EPut b _ _ => b | _ => [] end) t).

(** The handler that copies with a buffer of [n] octets. *)
CoFixpoint echo (n : N) : hprog :=
  HGet n (fun r => let '(b, eof) := r in if eof then HEnd true else HPut b (fun _ => echo n)).
(** The handler that reads everything before it writes [f] of it. *)
CoFixpoint collect (n : N) (f : bytes -> bytes) (m : bytes) : hprog :=
  HGet n (fun r => let '(b, eof) := r in if eof then HPut (f m) (fun _ => HEnd true) else collect n f (m ++ b)).
