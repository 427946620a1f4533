(** A client that uses UDP and a server that also serves others: the program of
    the client on its socket, the receiving loop of the server, and a goroutine
    for every datagram, one effect at a time in any order.

    The client runs the programs of Client.v on a connected socket through
    internal/net/udp.go (client.go:185-225, Udp.v). The server takes datagrams
    from its socket in the order of their arrival (server.go:276-281) and handles
    each in a goroutine of its own (server.go:283-333): [one_request] on the
    octets of the datagram, then Close, which sends all that was written as one
    datagram to the source (udp.go:90-106). That the program sees of a datagram
    what [dgram_env] says is C64. A datagram of more than 65507 octets cannot be
    sent (the limit of UDP over IPv4).

    Datagrams between the client and the server are neither lost nor delayed
    for ever nor reordered, nobody else sends from the addresses of the two, and
    deadlines do not expire. Others may send any datagrams from any other
    address at any time. *)
From Verif Require Import Bytes Parser Crypto Wire Server ServerSeq WireSeq MultiConn Keys Client ClientSeq SpecServer Udp SpecUdp.

(** What a datagram can hold. *)
Definition fits (b : bytes) : bool := lenN b <=? 65507.

(** Whether the client can go on: a Read waits for a datagram unless it has one
    (udp.go:52-59). *)
Definition u_ready {R} (e : ceff R) (x : udpc * unet) : bool :=
  match e with
  | CRead n | CCopy n => (n =? 0) || u_read (fst x) || match n_in (snd x) with [] => false | _ => true end
  | _ => true
  end.

(** The datagrams that left a socket between two states. *)
Definition left_socket (x x' : udpc * unet) : list bytes :=
  map snd (skipn (length (n_out (snd x))) (n_out (snd x'))).

(** [v_q] is the server's socket. The goroutine for the [k]-th datagram of the
    client is connection [2 * k] of [v_srv], that for the [k]-th datagram of the
    others is [2 * k + 1]; [v_from] is the source, [v_done]: the goroutine is
    over. [v_mine] and [v_others] datagrams were received. *)
Record usys (A : Type) := {
  v_cl : cprog A; v_cx : udpc * unet; v_cs : cst;
  v_q : list (bytes * bytes);
  v_srv : mst; v_from : nat -> bytes; v_done : nat -> bool; v_mine : nat; v_others : nat }.
Arguments v_cl {A}. Arguments v_cx {A}. Arguments v_cs {A}. Arguments v_q {A}. Arguments v_srv {A}.
Arguments v_from {A}. Arguments v_done {A}. Arguments v_mine {A}. Arguments v_others {A}.

(** The client moves, the server receives a datagram, a goroutine goes on, a
    goroutine closes its UDPConn and is over, a datagram of somebody else
    arrives, an entry of the secret manager is collected. *)
Inductive umove := UClient | UReceive | UStep (j : nat) | UAnswer (j : nat) | UArrive (a d : bytes) | UCollect (key : bytes).

(** There is such a goroutine. *)
Definition runs {A} (x : usys A) (j : nat) : bool :=
  (Nat.div2 j <? (if Nat.even j then v_mine x else v_others x))%nat && negb (v_done x j).

Definition with_srv {A} (x : usys A) (t : mst) : usys A :=
  {| v_cl := v_cl x; v_cx := v_cx x; v_cs := v_cs x; v_q := v_q x; v_srv := t; v_from := v_from x; v_done := v_done x;
     v_mine := v_mine x; v_others := v_others x |}.

(** udp.go:90-106: what a goroutine wrote leaves as one datagram, if at all. *)
Definition deliver (srv b : bytes) (x : udpc * unet) : udpc * unet :=
  match b with
  | [] => x
  | _ => if fits b then (fst x, arrive srv b (snd x)) else x
  end.

Definition upd {B} (f : nat -> B) (i : nat) (b : B) (j : nat) : B := if Nat.eqb j i then b else f j.

(** [None]: the move is not possible. The client is at the address [me], the
    server at [srv]. *)
Definition usys_move (C : Crypto) (CE : cenv) (E : nat -> senv) (hostof : bytes -> option bytes) (chunk : nat -> N)
  (me srv : bytes) {A} (x : usys A) (v : umove) : option (usys A) :=
  match v with
  | UClient =>
      match v_cl x with
      | CDo e k =>
          if u_ready e (v_cx x) then
            let '(r, (cx, s)) := ucexec C CE chunk (fun _ => fits) e (v_cx x) (v_cs x) in
            Some {| v_cl := k r; v_cx := cx; v_cs := s; v_q := v_q x ++ map (pair me) (left_socket (v_cx x) cx);
                    v_srv := v_srv x; v_from := v_from x; v_done := v_done x; v_mine := v_mine x; v_others := v_others x |}
          else None
      | _ => None
      end
  | UReceive =>
      match v_q x with
      | [] => None
      | (a, d) :: q =>
          let mine := bytes_eqb a me in
          let j := (if mine then 2 * v_mine x else 2 * v_others x + 1)%nat in
          Some {| v_cl := v_cl x; v_cx := v_cx x; v_cs := v_cs x; v_q := q;
                  v_srv := set_conn (v_srv x) j (t_mem (v_srv x), fresh_conn C false d);
                  v_from := upd (v_from x) j a; v_done := upd (v_done x) j false;
                  v_mine := if mine then S (v_mine x) else v_mine x; v_others := if mine then v_others x else S (v_others x) |}
      end
  | UStep j =>
      match c_prog (t_conn (v_srv x) j) with
      | SDo _ _ =>
          if runs x j then
            Some (with_srv x (set_conn (v_srv x) j
              (conn_step C (dgram_env (E j) (hostof (v_from x j))) false (t_mem (v_srv x)) (t_conn (v_srv x) j))))
          else None
      | _ => None
      end
  | UAnswer j =>
      match c_prog (t_conn (v_srv x) j) with
      | SDo _ _ => None
      | _ =>
          if runs x j then
            let b := wire (MultiConn.c_sent (t_conn (v_srv x) j)) in
            Some {| v_cl := v_cl x; v_cx := if bytes_eqb (v_from x j) me then deliver srv b (v_cx x) else v_cx x; v_cs := v_cs x;
                    v_q := v_q x; v_srv := v_srv x; v_from := v_from x; v_done := upd (v_done x) j true;
                    v_mine := v_mine x; v_others := v_others x |}
          else None
      end
  | UArrive a d =>
      if bytes_eqb a me then None
      else Some {| v_cl := v_cl x; v_cx := v_cx x; v_cs := v_cs x; v_q := v_q x ++ [(a, d)]; v_srv := v_srv x;
                   v_from := v_from x; v_done := v_done x; v_mine := v_mine x; v_others := v_others x |}
  | UCollect k => Some (with_srv x {| t_mem := collect (t_mem (v_srv x)) k; t_conn := t_conn (v_srv x) |})
  end.

Fixpoint usys_run (C : Crypto) (CE : cenv) (E : nat -> senv) (hostof : bytes -> option bytes) (chunk : nat -> N)
  (me srv : bytes) {A} (sched : list umove) (x : usys A) : option (usys A) :=
  match sched with
  | [] => Some x
  | v :: l => match usys_move C CE E hostof chunk me srv x v with
              | Some y => usys_run C CE E hostof chunk me srv l y
              | None => None
              end
  end.
