(** One Client used by two goroutines, as net.Conn (client.go:42-43, 120-121)
    suggests: one writes message after message, the other reads reply after reply,
    client.go:310-416 over TCP and, with internal/net/udp.go:52-87, over UDP.

    The two take turns at every effect. A read of the connection waits until its
    octets are there. The server answers the messages in the order in which they
    were sent; [x_todo] are the answers it has not given yet, and an answer is only
    given to a message that was sent. Simplified: the fields of the Client and of
    the UDPConn are read and written in single steps, a data race on them is taken
    to do no worse than that; over UDP the reads of one io.ReadFull are one step. *)
From Verif Require Import Bytes Parser Crypto Wire Server Keys Client ClientSeq Udp.

Fixpoint read_loop (C : Crypto) (o : copts) (ses : csession) (n : N) (m : nat) : cprog (list rd_result) :=
  match m with
  | O => CRet []
  | S m => doc r <- client_read C o ses n; doc rs <- read_loop C o ses n m; CRet (r :: rs)
  end.
Fixpoint write_loop (C : Crypto) (o : copts) (ses : csession) (ps : list bytes) : cprog (list wr_result) :=
  match ps with
  | [] => CRet []
  | p :: ps => doc r <- client_write C o ses p; doc rs <- write_loop C o ses ps; CRet (r :: rs)
  end.

Inductive dmove :=
| MRead                (* the reading goroutine *)
| MWrite               (* the writing goroutine *)
| MAnswer              (* the server answers the next message *)
| MArrive (k : N).     (* [k] octets of the answers arrive (TCP) *)

(** ** Over TCP *)
Record dup := {
  x_rd : cprog (list rd_result); x_wr : cprog (list wr_result); x_cs : cst;
  x_ans : nat;          (* messages that were answered *)
  x_todo : list bytes;
  x_chan : bytes }.     (* octets on their way to the client *)

(** Whether an effect need not wait when [n] octets are there. *)
Definition ready {R} (e : ceff R) (n : N) : bool :=
  match e with CRead k | CCopy k => k <=? n | _ => true end.

Definition dup_move (C : Crypto) (E : cenv) (x : dup) (v : dmove) : option dup :=
  match v with
  | MRead =>
      match x_rd x with
      | CDo e k =>
          if ready e (lenN (c_in (x_cs x))) then
            let '(r, s) := cexec C E e (x_cs x) in
            Some {| x_rd := k r; x_wr := x_wr x; x_cs := s; x_ans := x_ans x; x_todo := x_todo x; x_chan := x_chan x |}
          else None
      | _ => None
      end
  | MWrite =>
      match x_wr x with
      | CDo e k =>
          let '(r, s) := cexec C E e (x_cs x) in
          Some {| x_rd := x_rd x; x_wr := k r; x_cs := s; x_ans := x_ans x; x_todo := x_todo x; x_chan := x_chan x |}
      | _ => None
      end
  | MAnswer =>
      match x_todo x with
      | f :: fs =>
          if (x_ans x <? length (c_sent (x_cs x)))%nat then
            Some {| x_rd := x_rd x; x_wr := x_wr x; x_cs := x_cs x; x_ans := S (x_ans x); x_todo := fs; x_chan := x_chan x ++ f |}
          else None
      | [] => None
      end
  | MArrive k =>
      if (0 <? k) && (k <=? lenN (x_chan x)) then
        Some {| x_rd := x_rd x; x_wr := x_wr x; x_cs := c_set_in (x_cs x) (c_in (x_cs x) ++ takeN k (x_chan x));
                x_ans := x_ans x; x_todo := x_todo x; x_chan := dropN k (x_chan x) |}
      else None
  end.

Fixpoint dup_run (C : Crypto) (E : cenv) (l : list dmove) (x : dup) : option dup :=
  match l with
  | [] => Some x
  | v :: l => match dup_move C E x v with Some y => dup_run C E l y | None => None end
  end.

Definition duplex (C : Crypto) (o : copts) (ses : csession) (n : N) (ps fs : list bytes) (s : cst) : dup :=
  {| x_rd := read_loop C o ses n (length ps); x_wr := write_loop C o ses ps; x_cs := s;
     x_ans := length (c_sent s); x_todo := fs; x_chan := [] |}.

(** ** Over UDP *)
Record udup := {
  z_rd : cprog (list rd_result); z_wr : cprog (list wr_result); z_cs : cst; z_u : udpc * unet;
  z_ans : nat; z_todo : list bytes }.

(** A read waits if it needs a datagram and none is there. *)
Definition uready {R} (e : ceff R) (u : udpc * unet) : bool :=
  match e with
  | CRead _ | CCopy _ => u_read (fst u) || negb (match n_in (snd u) with [] => true | _ => false end)
  | _ => true
  end.

Definition udup_move (C : Crypto) (E : cenv) (chunk : nat -> N) (send : nat -> bytes -> bool) (srv : bytes) (x : udup) (v : dmove)
  : option udup :=
  match v with
  | MRead =>
      match z_rd x with
      | CDo e k =>
          if uready e (z_u x) then
            let '(r, (u, s)) := ucexec C E chunk send e (z_u x) (z_cs x) in
            Some {| z_rd := k r; z_wr := z_wr x; z_cs := s; z_u := u; z_ans := z_ans x; z_todo := z_todo x |}
          else None
      | _ => None
      end
  | MWrite =>
      match z_wr x with
      | CDo e k =>
          let '(r, (u, s)) := ucexec C E chunk send e (z_u x) (z_cs x) in
          Some {| z_rd := z_rd x; z_wr := k r; z_cs := s; z_u := u; z_ans := z_ans x; z_todo := z_todo x |}
      | _ => None
      end
  | MAnswer =>
      match z_todo x with
      | f :: fs =>
          if (z_ans x <? length (c_sent (z_cs x)))%nat then
            let '(u, n) := z_u x in
            Some {| z_rd := z_rd x; z_wr := z_wr x; z_cs := z_cs x;
                    z_u := (u, {| n_in := n_in n ++ [(srv, f)]; n_out := n_out n; n_step := n_step n; n_closed := n_closed n |});
                    z_ans := S (z_ans x); z_todo := fs |}
          else None
      | [] => None
      end
  | MArrive _ => None
  end.

Fixpoint udup_run (C : Crypto) (E : cenv) (chunk : nat -> N) (send : nat -> bytes -> bool) (srv : bytes) (l : list dmove) (x : udup)
  : option udup :=
  match l with
  | [] => Some x
  | v :: l => match udup_move C E chunk send srv x v with Some y => udup_run C E chunk send srv l y | None => None end
  end.

Definition uduplex (C : Crypto) (o : copts) (ses : csession) (n : N) (ps fs : list bytes) (s : cst) : udup :=
  {| z_rd := read_loop C o ses n (length ps); z_wr := write_loop C o ses ps; z_cs := s;
     z_u := (new_udp false, {| n_in := []; n_out := []; n_step := 0; n_closed := false |});
     z_ans := length (c_sent s); z_todo := fs |}.
