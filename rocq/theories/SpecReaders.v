(** Vocabulary for several goroutines that use one client: any interleaving of
    their programs, effect by effect, on one connection and one client state. *)
From Verif Require Import Bytes Parser Crypto Wire Keys Client ClientSeq.

Section Turns.
Variables (C : Crypto) (E : cenv) (A : Type).

(** A goroutine performs its next effect; one that ended does nothing. *)
Definition turn (p : cprog A) (s : cst) : cprog A * cst :=
  match p with
  | CDo e k => let '(r, s') := cexec C E e s in (k r, s')
  | _ => (p, s)
  end.
Fixpoint set_nth (i : nat) (p : cprog A) (ps : list (cprog A)) : list (cprog A) :=
  match ps, i with
  | [], _ => []
  | _ :: l, O => p :: l
  | x :: l, S j => x :: set_nth j p l
  end.
(** [sched]: whose turn it is. *)
Fixpoint turns (sched : list nat) (ps : list (cprog A)) (s : cst) : list (cprog A) * cst :=
  match sched with
  | [] => (ps, s)
  | i :: l =>
      match nth_error ps i with
      | None => turns l ps s
      | Some p => let '(p', s') := turn p s in turns l (set_nth i p' ps) s'
      end
  end.
End Turns.

(** A schedule in which every goroutine has all its turns in a row. *)
Definition in_blocks (bs : list (nat * nat)) : list nat := concat (map (fun b => repeat (fst b) (snd b)) bs).
