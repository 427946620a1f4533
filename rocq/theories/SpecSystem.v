(** Vocabulary for a conversation among others. *)
From Verif Require Import Bytes Crypto Wire Server ServerSeq MultiConn Client ClientSeq SpecMulti System.

(** The client is about to dial on a connection that was just accepted, with
    nothing in flight; the other connections are about to start. *)
Definition dialling (C : Crypto) (tcp : nat -> bool) (inputs : nat -> bytes) (m : mem) (me : nat) {A} (p : cprog A) : sys A :=
  {| y_cl := p;
     y_cs := {| c_in := []; c_step := 0; c_sent := []; c_ctr := 0; c_last := 0; c_buf := []; c_seals := [] |};
     y_srv := starting C tcp (fun j => if Nat.eqb j me then [] else inputs j) m |}.

(** In the course of a schedule no other connection uses the entry [key] of the
    secret manager, and it is not collected. *)
Definition spares1 (key : bytes) {A} (x : sys A) (v : move) : Prop :=
  match v with
  | MOther j => next_key (c_prog (t_conn (y_srv x) j)) <> Some key
  | MCollect k => k <> key
  | _ => True
  end.
Fixpoint spares (C : Crypto) (CE : cenv) (E : nat -> senv) (tcp : nat -> bool) (me : nat) (key : bytes) {A}
    (sched : list move) (x : sys A) : Prop :=
  match sched with
  | [] => True
  | v :: l => spares1 key x v /\ match sys_move C CE E tcp me x v with
                                 | Some y => spares C CE E tcp me key l y
                                 | None => True
                                 end
  end.

(** Neither the client nor its connection can move. *)
Definition rests (C : Crypto) (CE : cenv) (E : nat -> senv) (tcp : nat -> bool) (me : nat) {A} (x : sys A) : Prop :=
  sys_move C CE E tcp me x MClient = None /\ sys_move C CE E tcp me x MServe = None.

(** How often the client and its connection move in a schedule. *)
Definition own_moves (sched : list move) : nat :=
  length (filter (fun v => match v with MClient | MServe => true | _ => false end) sched).

(** Requests of a conversation, as the application sees them: the counters from
    [c] on. *)
Fixpoint numbered (c : N) (reply : bool) (ps : list bytes) : list (N * bool * bytes) :=
  match ps with
  | [] => []
  | p :: ps' => (c, reply, p) :: numbered (c + 1) reply ps'
  end.

(** What the Reads of a conversation return if the server answers [p] with
    [f p]: each reply whole, with io.EOF; nothing if no replies are expected. *)
Definition expected (o : copts) (f : bytes -> bytes) (ps : list bytes) : list rd_result :=
  if co_reply o then map (fun p => RdOk (f p) true) ps else [].
