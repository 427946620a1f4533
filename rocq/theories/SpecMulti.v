(** Vocabulary for what one connection of many can be seen to do. *)
From Verif Require Import Bytes Crypto Server ServerSeq SpecServer MultiConn.

(** Whether a connection goes on, was closed in order, or panicked. *)
Inductive status := Running | Ended | Crashed.
Definition status_of (tcp : bool) (c : conn) : status :=
  match c_prog c with
  | SRet true => if tcp then Running else Ended
  | SRet false => Ended
  | SPanic => Crashed
  | SDo _ _ => Running
  end.

(** Calls of the handler as the application sees them. *)
Definition seen (calls : list (nat * N * bool * bytes)) : list (N * bool * bytes) :=
  map (fun '(_, c, r, m) => (c, r, m)) calls.

(** The session of a host and an id. *)
Definition session_of (C : Crypto) (m : mem) (host id : bytes) : option session :=
  match m_map m (session_key C host id) with
  | Some p => Some (m_heap m p)
  | None => None
  end.

(** Two runs of a connection that nobody outside the server can tell apart. *)
Definition same_conduct (tcp : bool) (c c' : conn) : Prop :=
  c_in c = c_in c' /\ c_step c = c_step c' /\ c_sent c = c_sent c' /\
  seen (c_calls c) = seen (c_calls c') /\ status_of tcp c = status_of tcp c'.

(** A table of sessions as it can arise: entries point to allocated sessions, and
    no two to the same. *)
Definition sane (m : mem) : Prop :=
  (forall k p, m_map m k = Some p -> (p < m_next m)%nat) /\
  (forall k k' p, m_map m k = Some p -> m_map m k' = Some p -> k = k').

(** All connections are about to start. *)
Definition starting (C : Crypto) (tcp : nat -> bool) (inputs : nat -> bytes) (m : mem) : mst :=
  {| t_mem := m; t_conn := fun i => fresh_conn C (tcp i) (inputs i) |}.

(** The part of a schedule that concerns the connections [G] and the entries [K]. *)
Definition part (G : nat -> bool) (K : bytes -> bool) (sched : list act) : list act :=
  filter (fun a => match a with AConn i => G i | ACollect k => K k end) sched.

(** The entry of the secret manager that the next effect reads or writes. *)
Definition next_key (p : sprog bool) : option bytes :=
  match p with
  | SDo e _ => match e with SStore k _ => Some k | SLoad k => Some k | _ => None end
  | _ => None
  end.

(** In the course of a schedule, connections in [G] use entries in [K] only, and
    other connections entries outside [K] only. *)
Definition within1 (G : nat -> bool) (K : bytes -> bool) (t : mst) (a : act) : Prop :=
  match a with
  | AConn i => forall k, next_key (c_prog (t_conn t i)) = Some k -> K k = G i
  | ACollect _ => True
  end.
Fixpoint within (C : Crypto) (E : nat -> senv) (tcp : nat -> bool) (G : nat -> bool) (K : bytes -> bool)
    (sched : list act) (t : mst) : Prop :=
  match sched with
  | [] => True
  | a :: l => within1 G K t a /\ within C E tcp G K l (mstep C E tcp t a)
  end.

(** A connection among others is where a run by itself ended. *)
Definition agrees (C : Crypto) (K : bytes -> bool) (m : mem) (c : conn) (s : sst) : Prop :=
  c_in c = s_in s /\ c_sent c = s_sent s /\ seen (c_calls c) = seen (s_calls s) /\
  (forall hst id, K (session_key C hst id) = true -> session_of C m hst id = known C s hst id).

(** How often a connection moves in a schedule. *)
Definition turns (i : nat) (sched : list act) : nat :=
  length (filter (fun a => match a with AConn j => Nat.eqb j i | ACollect _ => false end) sched).
