(** Vocabulary for the properties of the client pool. *)
From Verif Require Import Bytes ClientConc Pool.

(** Whether the user has client [c]: it was handed out and not closed since. *)
Fixpoint with_user (tr : list (nat * pev)) (c : nat) : bool :=
  match tr with
  | [] => false
  | (_, EGot c') :: r => if Nat.eqb c' c then true else with_user r c
  | (_, EGive c') :: r => if Nat.eqb c' c then false else with_user r c
  | _ :: r => with_user r c
  end.
(** Users close only clients they have, so once per Get. *)
Definition disciplined (tr : list (nat * pev)) : Prop :=
  forall post i c pre, tr = post ++ (i, EGive c) :: pre -> with_user pre c = true.

(** The client a goroutine inside Get or put has in hand. *)
Definition in_hand (p : ppc) : option nat :=
  match p with
  | TTest c _ | TDead c _ | TPut c _ | TPutL c _ => Some c
  | _ => None
  end.

Definition open_count (s : pst) : Z := Z.of_nat (length (filter (cl_open s) (seq 0 (p_next s)))).

Definition no_event (tr : list (nat * pev)) (bad : pev -> bool) : Prop := forall i e, In (i, e) tr -> bad e = false.
Definition is_failed_test (e : pev) : bool := match e with ETest _ false => true | _ => false end.
Definition is_pool_close (e : pev) : bool := match e with EPoolClosed | EPoolErr => true | _ => false end.
Definition is_pool_error (e : pev) : bool := match e with EPoolErr => true | _ => false end.
Definition is_panic (e : pev) : bool := match e with EPanic => true | _ => false end.

(** Steps of one goroutine. *)
Inductive psteps_of (maxidle maxopen : Z) (i : nat) (s : pst) : pst -> Prop :=
| PSame : psteps_of maxidle maxopen i s s
| PMore s' s'' : psteps_of maxidle maxopen i s s' -> pstep maxidle maxopen s' i s'' ->
    psteps_of maxidle maxopen i s s''.

(** Steps of any goroutine, but no new calls by users. *)
Definition is_call (s : pst) (i : nat) : Prop := p_pc s i = TIdle.
Inductive quiet_steps (maxidle maxopen : Z) (s : pst) : pst -> Prop :=
| QSame : quiet_steps maxidle maxopen s s
| QMore s' s'' i : quiet_steps maxidle maxopen s s' -> ~ is_call s' i -> pstep maxidle maxopen s' i s'' ->
    quiet_steps maxidle maxopen s s''.

(** In this step Get hands [c] out. *)
Definition hands_out (s : pst) (i : nat) (s' : pst) (c : nat) : Prop :=
  exists ev, p_trace s' = (i, EGot c) :: ev ++ p_trace s.
(** Executions in which borrowers use a client only while they have it, and give it
    back only when they have read all that is in its buffer. Nothing is asked of the
    steps inside Get, put and Close. *)
Inductive tidy (maxidle maxopen : Z) : pst -> Prop :=
| TdInit : tidy maxidle maxopen p0
| TdNext s i s' : tidy maxidle maxopen s -> pstep maxidle maxopen s i s' ->
    (p_pc s i = TIdle -> forall c,
      (with_user (p_trace s) c = true -> with_user (p_trace s') c = false -> cl_buf s' c = []) /\
      (with_user (p_trace s) c = false -> cl_buf s' c = cl_buf s c)) ->
    tidy maxidle maxopen s'.
