(** What a replay filter is: a set of accepted counters. No reference to the
    implementation. *)
From Verif Require Import Bytes.

Definition highest (seen : list N) : N := fold_right N.max 0 seen.

(** [c] is acceptable after [seen] when it is not zero, not in [seen] and less
    than [w] below the highest of [seen]. *)
Definition acceptable (w : N) (seen : list N) (c : N) : Prop :=
  c <> 0 /\ ~ In c seen /\ highest seen < c + w.

(** [filter_run w seen cs rs seen']: presenting the counters [cs] in order to a
    filter that accepted [seen] gives the answers [rs]. *)
Inductive filter_run (w : N) : list N -> list N -> list bool -> list N -> Prop :=
| FrNil seen : filter_run w seen [] [] seen
| FrYes seen c cs rs seen' : acceptable w seen c -> filter_run w (c :: seen) cs rs seen' ->
    filter_run w seen (c :: cs) (true :: rs) seen'
| FrNo seen c cs rs seen' : ~ acceptable w seen c -> filter_run w seen cs rs seen' ->
    filter_run w seen (c :: cs) (false :: rs) seen'.

(** The counters of a history that got the answer [true]. *)
Fixpoint accepted (cs : list N) (rs : list bool) : list N :=
  match cs, rs with
  | c :: cs', r :: rs' => (if r then [c] else []) ++ accepted cs' rs'
  | _, _ => []
  end.
