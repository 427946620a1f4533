(** Vocabulary for what the registry does. *)
From Verif Require Import Bytes Registry.

(** Nobody took [n] off the register. *)
Definition kept (l : list (nat * rev)) (n : bytes) : Prop := forall i, ~ In (i, RDeleted n) l.

(** [u] is the only user that ever registered under its name. *)
Definition only (l : list (nat * rev)) (u : user) : Prop :=
  forall i v, In (i, RStored v) l -> u_name v = u_name u -> v = u.

(** Whether a name is on the register, according to a log. *)
Fixpoint on_register (l : list (nat * rev)) (n : bytes) : bool :=
  match l with
  | [] => false
  | (_, RStored u) :: l => bytes_eqb (u_name u) n || on_register l n
  | (_, RDeleted m) :: l => if bytes_eqb m n then false else on_register l n
  | _ :: l => on_register l n
  end.

(** The last thing [v] was told about [n]. *)
Fixpoint last_told (l : list (nat * rev)) (v : user) (n : bytes) : option bool :=
  match l with
  | [] => None
  | (_, RTold w j u) :: l =>
      if bytes_eqb (u_name w) (u_name v) && bytes_eqb (u_name u) n then Some j else last_told l v n
  | _ :: l => last_told l v n
  end.

(** No request is being handled. *)
Definition quiet (s : rst) : Prop := forall i t, r_task s i = Some t -> exists c, t = Done c.

(** Nobody registers under [n]. *)
Definition not_again (n : bytes) (l : list (nat * rev)) : Prop :=
  forall i u, In (i, RStored u) l -> u_name u <> n.

(** What must have happened when an event of request [i] happens. *)
Definition was_stored (l : list (nat * rev)) (u : user) : Prop := exists j, In (j, RStored u) l.
Definition grounds (l : list (nat * rev)) (i : nat) (e : rev) : Prop :=
  match e with
  | RBegin _ => True
  | RStored u => In (i, RBegin (QPost u)) l
  | RDeleted n => In (i, RBegin (QDelete n)) l
  | RTold v true u => was_stored l u /\ was_stored l v /\ u_name u <> u_name v /\
      (In (i, RStored u) l \/ In (i, RStored v) l)
  | RTold v false u => was_stored l u /\ was_stored l v /\ In (i, RDeleted (u_name u)) l
  | RList us => In (i, RBegin QGet) l
  | RResp c =>
      (c = 201 /\ exists u, In (i, RStored u) l) \/
      (c = 409 /\ exists u v, In (i, RBegin (QPost u)) l /\ was_stored l v /\ u_name v = u_name u) \/
      (c = 404 /\ exists n, In (i, RBegin (QDelete n)) l) \/
      (c = 204 /\ exists n, In (i, RDeleted n) l)
  end.
