(** A client and a server that also serves others: the program of the client, its
    connection to the server and all other connections, one effect at a time in
    any order.

    The client runs the programs of Client.v (client.go:140-153, 227-307,
    310-416), the server those of MultiConn.v. The two directions of the client's
    connection are queues of octets, the unread input of either side: io.ReadFull
    and io.Copy of an io.LimitReader wait until all octets they ask for are
    there, so that neither the segmentation nor the delay of a segment shows.
    Deadlines do not expire and the connection is not closed while the client
    uses it. Other connections may receive any octets at any time, and their
    reads may end at any time (as in MultiConn.v). *)
From Verif Require Import Bytes Parser Crypto Wire Server ServerSeq MultiConn Keys Client ClientSeq.

(** Write a message and, if replies are expected, Read once into a buffer of [n]
    octets; then the next message. A Write that fails ends the conversation. *)
Fixpoint exchange (C : Crypto) (o : copts) (ses : csession) (n : N) (ps : list bytes) : cprog (list rd_result) :=
  match ps with
  | [] => CRet []
  | p :: ps' =>
      doc w <- client_write C o ses p;
      match w with
      | WrConn _ false =>
          if co_reply o then
            doc r <- client_read C o ses n;
            doc rs <- exchange C o ses n ps';
            CRet (r :: rs)
          else exchange C o ses n ps'
      | _ => CRet []
      end
  end.

(** client.go:140-153 [DialTCP] on a connection that is there, and a conversation. *)
Definition talk (C : Crypto) (o : copts) (host : option bytes) (n : N) (ps : list bytes)
  : cprog (hs_error + list rd_result) :=
  doc h <- handshake C host;
  match h with
  | inl e => CRet (inl e)
  | inr ses => doc rs <- exchange C o ses n ps; CRet (inr rs)
  end.

(** Whether an effect can be done with this unread input, and the octets it puts
    on the wire. *)
Definition c_ready {R} (e : ceff R) (i : bytes) : bool :=
  match e with CRead n | CCopy n => n <=? lenN i | _ => true end.
Definition c_out {R} (E : cenv) (e : ceff R) (s : cst) : bytes :=
  match e with CWrite b => takeN (fst (ce_write E (c_step s) b)) b | _ => [] end.
Definition s_ready {R} (e : seff R) (i : bytes) : bool :=
  match e with SRead n | SCopy n => n <=? lenN i | _ => true end.
Definition s_out {R} (E : senv) (e : seff R) (step : nat) : bytes :=
  match e with SWrite b => takeN (fst (e_write E step b)) b | _ => [] end.

(** More input arrives. *)
Definition c_feed (s : cst) (b : bytes) : cst := c_set_in s (c_in s ++ b).
Definition conn_feed (c : conn) (b : bytes) : conn :=
  {| c_prog := c_prog c; MultiConn.c_in := MultiConn.c_in c ++ b; MultiConn.c_step := MultiConn.c_step c;
     MultiConn.c_sent := MultiConn.c_sent c; c_calls := c_calls c |}.
Definition feed (t : mst) (i : nat) (b : bytes) : mst := set_conn t i (t_mem t, conn_feed (t_conn t i) b).

Record sys (A : Type) := { y_cl : cprog A; y_cs : cst; y_srv : mst }.
Arguments y_cl {A}. Arguments y_cs {A}. Arguments y_srv {A}.

(** The client moves, its connection moves, another connection moves, octets
    arrive at another connection, an entry of the secret manager is collected. *)
Inductive move := MClient | MServe | MOther (j : nat) | MArrive (j : nat) (b : bytes) | MCollect (key : bytes).

(** [None]: the move is not possible. The client is at connection [me]. *)
Definition sys_move (C : Crypto) (CE : cenv) (E : nat -> senv) (tcp : nat -> bool) (me : nat) {A} (x : sys A) (v : move)
  : option (sys A) :=
  match v with
  | MClient =>
      match y_cl x with
      | CDo e k =>
          if c_ready e (c_in (y_cs x)) then
            let '(r, s) := cexec C CE e (y_cs x) in
            Some {| y_cl := k r; y_cs := s; y_srv := feed (y_srv x) me (c_out CE e (y_cs x)) |}
          else None
      | _ => None
      end
  | MServe =>
      let c := t_conn (y_srv x) me in
      match c_prog c with
      | SRet true =>
          if tcp me then Some {| y_cl := y_cl x; y_cs := y_cs x; y_srv := mstep C E tcp (y_srv x) (AConn me) |} else None
      | SRet false | SPanic => None
      | SDo e k =>
          if s_ready e (MultiConn.c_in c) then
            Some {| y_cl := y_cl x; y_cs := c_feed (y_cs x) (s_out (E me) e (MultiConn.c_step c));
                    y_srv := mstep C E tcp (y_srv x) (AConn me) |}
          else None
      end
  | MOther j =>
      if Nat.eqb j me then None
      else Some {| y_cl := y_cl x; y_cs := y_cs x; y_srv := mstep C E tcp (y_srv x) (AConn j) |}
  | MArrive j b =>
      if Nat.eqb j me then None
      else Some {| y_cl := y_cl x; y_cs := y_cs x; y_srv := feed (y_srv x) j b |}
  | MCollect k => Some {| y_cl := y_cl x; y_cs := y_cs x; y_srv := mstep C E tcp (y_srv x) (ACollect k) |}
  end.

Fixpoint sys_run (C : Crypto) (CE : cenv) (E : nat -> senv) (tcp : nat -> bool) (me : nat) {A} (sched : list move)
  (x : sys A) : option (sys A) :=
  match sched with
  | [] => Some x
  | v :: l => match sys_move C CE E tcp me x v with Some y => sys_run C CE E tcp me l y | None => None end
  end.
