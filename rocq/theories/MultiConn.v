(** Many connections of one server, each with its own network, sharing the
    sessions.

    Unlike Conc.v, which lets every answer of the environment vary and keeps a
    trace, this model runs the programs with the interpreter of ServerSeq.v, one
    effect at a time, in any order of connections. A TCP connection repeats
    [conn_body] (server.go:187-233); a datagram is handled once by [one_request]
    (server.go:283-333). A panic ends its own connection only, because both
    goroutines recover (server.go:176-180, 284-288). The secret manager is a map
    from keys to sessions from which an entry can disappear at any time
    (secret/secret.go:126-158, the collection of old entries).

    Not modelled here: memory order. Load, Store and CheckAndUpdate are single
    steps (sync.Map, and the mutex of CheckAndUpdate, secret/secret.go:30-63). *)
From Verif Require Import Bytes Parser Crypto Wire Replay Server ServerSeq.

(** What the connections share. *)
Record mem := { m_map : bytes -> option nat; m_heap : nat -> session; m_next : nat }.

(** What a connection has for itself: the rest of its program, its unread input,
    the questions it asked the environment, its writes and its calls of the
    handler. *)
Record conn := {
  c_prog : sprog bool; c_in : bytes; c_step : nat;
  c_sent : list (bytes * N); c_calls : list (nat * N * bool * bytes) }.

Record mst := { t_mem : mem; t_conn : nat -> conn }.

Definition join (m : mem) (c : conn) : sst :=
  {| s_in := c_in c; s_step := c_step c; s_sent := c_sent c; s_map := m_map m;
     s_heap := m_heap m; s_next := m_next m; s_calls := c_calls c |}.
Definition mem_of (s : sst) : mem :=
  {| m_map := s_map s; m_heap := s_heap s; m_next := s_next s |}.
Definition conn_of (p : sprog bool) (s : sst) : conn :=
  {| c_prog := p; c_in := s_in s; c_step := s_step s; c_sent := s_sent s; c_calls := s_calls s |}.

(** A connection that was just accepted, or a datagram that was just received. *)
Definition fresh_conn (C : Crypto) (tcp : bool) (input : bytes) : conn :=
  {| c_prog := if tcp then conn_body C else one_request C; c_in := input; c_step := 0;
     c_sent := []; c_calls := [] |}.

(** The next effect of a connection. *)
Definition conn_step (C : Crypto) (E : senv) (tcp : bool) (m : mem) (c : conn) : mem * conn :=
  match c_prog c with
  | SRet true => (m, if tcp then conn_of (conn_body C) (join m c) else c)
  | SRet false | SPanic => (m, c)
  | SDo e k => let '(r, s) := sexec C E e (join m c) in (mem_of s, conn_of (k r) s)
  end.

(** A connection moves, or an entry of the secret manager is collected. *)
Inductive act := AConn (i : nat) | ACollect (key : bytes).

Definition set_conn (t : mst) (i : nat) (mc : mem * conn) : mst :=
  {| t_mem := fst mc; t_conn := fun j => if Nat.eqb j i then snd mc else t_conn t j |}.
Definition collect (m : mem) (key : bytes) : mem :=
  {| m_map := fun k => if bytes_eqb k key then None else m_map m k; m_heap := m_heap m;
     m_next := m_next m |}.

Definition mstep (C : Crypto) (E : nat -> senv) (tcp : nat -> bool) (t : mst) (a : act) : mst :=
  match a with
  | AConn i => set_conn t i (conn_step C (E i) (tcp i) (t_mem t) (t_conn t i))
  | ACollect k => {| t_mem := collect (t_mem t) k; t_conn := t_conn t |}
  end.

Definition mrun (C : Crypto) (E : nat -> senv) (tcp : nat -> bool) (sched : list act) (t : mst) : mst :=
  fold_left (mstep C E tcp) sched t.
