(** Clients that share a session, and the server they talk to.

    client_pool.go:42-96 gives every client of a pool a connection of its own and
    one session for all: the id, the secret and the counter, an atomic.Uint64
    (client.go:112-117, 406; client_pool.go:79-81, 90). Client [i] is at
    connection [i] of the server and runs a program of Client.v, the server runs
    those of MultiConn.v, other connections are as in System.v, and again there
    is one effect at a time in any order. The counter field of a client's state
    is not its own: it holds the shared counter whenever the client moves.

    The handshake that made the session is over (its client is one of the team,
    on a connection that waits for the next request); Get and Put are not
    modelled here, see Pool.v. *)
From Verif Require Import Bytes Parser Crypto Wire Server ServerSeq MultiConn Keys Client ClientSeq System.

Record team (A : Type) := { z_cl : nat -> cprog A; z_cs : nat -> cst; z_ctr : N; z_srv : mst }.
Arguments z_cl {A}. Arguments z_cs {A}. Arguments z_ctr {A}. Arguments z_srv {A}.

(** A client of the team moves, its connection moves, another connection moves,
    octets arrive at another connection, an entry of the secret manager is
    collected. *)
Inductive tmove := TClient (i : nat) | TServe (i : nat) | TOther (j : nat) | TArrive (j : nat) (b : bytes) | TCollect (key : bytes).

Definition at_i {B} (f : nat -> B) (i : nat) (b : B) (j : nat) : B := if Nat.eqb j i then b else f j.

(** [None]: the move is not possible. The clients of the team are at the
    connections below [T]. *)
Definition team_move (C : Crypto) (CE : nat -> cenv) (E : nat -> senv) (tcp : nat -> bool) (T : nat) {A} (x : team A) (v : tmove)
  : option (team A) :=
  match v with
  | TClient i =>
      if Nat.ltb i T then
        match z_cl x i with
        | CDo e k =>
            let cs := c_set_ctr (z_cs x i) (z_ctr x) in
            if c_ready e (ClientSeq.c_in cs) then
              let '(r, s) := cexec C (CE i) e cs in
              Some {| z_cl := at_i (z_cl x) i (k r); z_cs := at_i (z_cs x) i s; z_ctr := c_ctr s;
                      z_srv := feed (z_srv x) i (c_out (CE i) e cs) |}
            else None
        | _ => None
        end
      else None
  | TServe i =>
      if Nat.ltb i T then
        let c := t_conn (z_srv x) i in
        match c_prog c with
        | SRet true =>
            if tcp i then Some {| z_cl := z_cl x; z_cs := z_cs x; z_ctr := z_ctr x; z_srv := mstep C E tcp (z_srv x) (AConn i) |}
            else None
        | SRet false | SPanic => None
        | SDo e k =>
            if s_ready e (MultiConn.c_in c) then
              Some {| z_cl := z_cl x; z_cs := at_i (z_cs x) i (c_feed (z_cs x i) (s_out (E i) e (MultiConn.c_step c)));
                      z_ctr := z_ctr x; z_srv := mstep C E tcp (z_srv x) (AConn i) |}
            else None
        end
      else None
  | TOther j =>
      if Nat.ltb j T then None
      else Some {| z_cl := z_cl x; z_cs := z_cs x; z_ctr := z_ctr x; z_srv := mstep C E tcp (z_srv x) (AConn j) |}
  | TArrive j b =>
      if Nat.ltb j T then None
      else Some {| z_cl := z_cl x; z_cs := z_cs x; z_ctr := z_ctr x; z_srv := feed (z_srv x) j b |}
  | TCollect k =>
      Some {| z_cl := z_cl x; z_cs := z_cs x; z_ctr := z_ctr x; z_srv := mstep C E tcp (z_srv x) (ACollect k) |}
  end.

Fixpoint team_run (C : Crypto) (CE : nat -> cenv) (E : nat -> senv) (tcp : nat -> bool) (T : nat) {A} (sched : list tmove)
  (x : team A) : option (team A) :=
  match sched with
  | [] => Some x
  | v :: l => match team_move C CE E tcp T x v with Some y => team_run C CE E tcp T l y | None => None end
  end.
