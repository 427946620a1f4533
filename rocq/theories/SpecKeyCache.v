(** Vocabulary for the properties of the key cache. *)
From Verif Require Import Bytes Crypto ClientConc KeyCache.

(** The events of one call, oldest first. *)
Definition events_of (i : nat) (tr : list (nat * N * fev)) : list fev :=
  map snd (filter (fun x => Nat.eqb (fst (fst x)) i) (rev tr)).

(** Complete calls one after the other: answered from the cache without asking,
    or asked exactly once and answered with that answer. *)
Inductive calls : list fev -> Prop :=
| Calls_nil : calls []
| Calls_hit l h pk t : calls l -> calls (l ++ [ELoad h; ECached h pk t])
| Calls_fresh l h pk : calls l -> calls (l ++ [ELoad h; EAsk h (Some pk); EFresh h pk])
| Calls_fail l h : calls l -> calls (l ++ [ELoad h; EAsk h None; EFail h]).
(** ... and possibly one in progress. *)
Definition calls_so_far (l : list fev) : Prop :=
  calls l \/ (exists l' h, calls l' /\ l = l' ++ [ELoad h]) \/
  (exists l' h pk, calls l' /\ l = l' ++ [ELoad h; EAsk h (Some pk)]).

Definition busy_with (p : fpc) (h : bytes) : Prop :=
  match p with
  | FIdle => False
  | FLoaded h' _ | FDelete h' | FFetch h' | FNow h' _ | FStore h' _ => h' = h
  end.

(** Holding an answer of the underlying fetcher that is not stored yet. *)
Definition storing (p : fpc) (h : bytes) : Prop := exists pk it, p = FNow h pk \/ p = FStore h it.
