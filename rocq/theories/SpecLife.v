(** Vocabulary for the life of a server. *)
From Verif Require Import Bytes ClientConc Life.

(** No TCP connection was counted after the channel was closed. *)
Definition no_late_add (tr : list (nat * lev)) : Prop :=
  forall post k pre a, tr = post ++ (k, EQuit) :: pre -> ~ In (a, EAdd) post.

(** A TCP connection is being served, or will be. *)
Definition serving (p : lpc) : bool :=
  match p with ASpawn | HQuit | HRead | HHandle | HClose | HDone => true | _ => false end.
(** The last goroutine out is about to wake Close. *)
Definition releasing (p : lpc) : bool := match p with HLast _ | HRel _ => true | _ => false end.

Definition count_of (a : nat) (tr : list (nat * lev)) : nat :=
  length (filter (fun x => Nat.eqb (fst x) a && match snd x with EAccept => true | _ => false end) tr).

(** In Close, or returned from it. *)
Definition in_close (p : lpc) : bool := match p with KWait | KBlocked | KWoken | KReturned => true | _ => false end.

(** Steps during which no connection is accepted or counted, and nobody calls
    StartTCP, StartUDP or Close. *)
Inductive closing (s : lst) : lst -> Prop :=
| ClSame : closing s s
| ClMore i c s1 s' : ldo s i c = Some s1 -> l_pc s i <> TNone -> l_pc s i <> AAccept -> l_pc s i <> AAdd -> closing s1 s' -> closing s s'.

(** Any steps of any goroutines, except that the outside does nothing for goroutine
    [a]: if it is in Accept nobody connects to it and Accept does not fail, if it
    reads a request nothing arrives and reading does not fail. *)
Inductive unserved (a : nat) : lst -> lst -> Prop :=
| UnSame s : unserved a s s
| UnMore s i c s1 s' : ldo s i c = Some s1 ->
    ~ (i = a /\ (l_pc s i = AAccept \/ l_pc s i = HRead) /\ (c = ChOk \/ c = ChErr)) ->
    unserved a s1 s' -> unserved a s s'.

(** The goroutine of a TCP listener. *)
Definition listener (p : lpc) : bool := match p with AQuit | AAccept | AAdd | ASpawn | AEnd => true | _ => false end.
(** How many of the steps are those of goroutine [a]. *)
Definition own_steps (a : nat) (l : list (nat * choice)) : nat := length (filter (fun x => Nat.eqb (fst x) a) l).

(** The goroutine of a UDP listener; it closes the socket when it ends
    (server.go:241-252). *)
Definition packet_listener (p : lpc) : bool := match p with PQuit | PRecv | PSpawn | PEnd => true | _ => false end.
(** Requests read from the TCP connection that goroutine [j] serves, and those
    handled. *)
Definition reads_of (j : nat) (tr : list (nat * lev)) : nat :=
  length (filter (fun x => Nat.eqb (fst x) j && match snd x with ERead => true | _ => false end) tr).
Definition handled_of (j : nat) (tr : list (nat * lev)) : nat :=
  length (filter (fun x => Nat.eqb (fst x) j && match snd x with EHandle => true | _ => false end) tr).

(** The goroutine of a TCP connection. *)
Definition connection (p : lpc) : bool :=
  match p with HQuit | HRead | HHandle | HClose | HDone | HLast _ | HRel _ | HEnd => true | _ => false end.
