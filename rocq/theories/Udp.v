(** /repo/internal/net/udp.go, the server's use of it (server.go:257-335) and the
    client's (client.go:193-225).

    A socket is a queue of datagrams that arrived, each with its source address,
    and the datagrams that left, each with its destination ([None]: the peer the
    socket is connected to). Sending is all or nothing and may fail; receiving
    fails when the queue is empty (a deadline, or the wait is for ever). Not
    modelled: truncation (udp.go:78 allocates more than the largest datagram), and
    WriteTo reporting fewer octets than it was given. *)
From Verif Require Import Bytes Parser Crypto Wire Replay Server ServerSeq Keys Client ClientSeq.

(** udp.go:25-33 [UDPConn]; [u_rbuf], [u_wbuf] are the unread parts of the buffers. *)
Record udpc := { u_read : bool; u_addr : bytes; u_rbuf : bytes; u_wbuf : bytes; u_buffered : bool }.
Record unet := { n_in : list (bytes * bytes); n_out : list (option bytes * bytes); n_step : nat; n_closed : bool }.

(** udp.go:36-49 [NewUDPConn] *)
Definition new_udp (buffered : bool) : udpc :=
  {| u_read := false; u_addr := []; u_rbuf := []; u_wbuf := []; u_buffered := buffered |}.

(** udp.go:77-87 [Receive] *)
Definition udp_receive (x : udpc * unet) : bool * (udpc * unet) :=
  let '(u, n) := x in
  if n_closed n then (false, x)
  else match n_in n with
  | [] => (false, x)
  | (a, d) :: q =>
      (true, ({| u_read := true; u_addr := a; u_rbuf := d; u_wbuf := u_wbuf u; u_buffered := u_buffered u |},
              {| n_in := q; n_out := n_out n; n_step := n_step n; n_closed := n_closed n |}))
  end.

(** bytes.Buffer.Read into a slice of length [k] > 0; [None] is io.EOF. *)
Definition buf_read (k : N) (b : bytes) : option bytes := match b with [] => None | _ => Some (takeN k b) end.
Definition u_set_rbuf (u : udpc) (b : bytes) : udpc :=
  {| u_read := u_read u; u_addr := u_addr u; u_rbuf := b; u_wbuf := u_wbuf u; u_buffered := u_buffered u |}.

Inductive rerr := REof | RErr.
(** udp.go:52-59 [Read] into a slice of length [k] > 0 *)
Definition udp_read1 (k : N) (x : udpc * unet) : (bytes * option rerr) * (udpc * unet) :=
  let read (x : udpc * unet) :=
    let '(u, n) := x in
    match buf_read k (u_rbuf u) with
    | None => (([], Some REof), x)
    | Some b => ((b, None), (u_set_rbuf u (dropN k (u_rbuf u)), n))
    end in
  if u_read (fst x) then read x
  else match udp_receive x with
  | (false, x') => (([], Some RErr), x')
  | (true, x') => read x'
  end.

(** The loops of io.ReadFull and of io.Copy over an io.LimitReader: Read until [n]
    octets arrived or an error occurs; how many octets the [f]-th Read from the
    end asks for is arbitrary. *)
Fixpoint udp_take (chunk : nat -> N) (fuel : nat) (n : N) (x : udpc * unet) : (bytes * option rerr) * (udpc * unet) :=
  match fuel with
  | O => (([], None), x)
  | S f =>
      if n =? 0 then (([], None), x)
      else match udp_read1 (N.min n (N.max 1 (chunk f))) x with
      | ((got, Some e), x') => ((got, Some e), x')
      | ((got, None), x') => let '((more, e), x'') := udp_take chunk f (n - lenN got) x' in ((got ++ more, e), x'')
      end
  end.
(** Enough iterations: every Read without an error takes an octet. *)
Definition udp_fuel (x : udpc * unet) : nat :=
  let '(u, n) := x in
  S (S (length (u_rbuf u) + match n_in n with [] => 0 | (_, d) :: _ => length d end)).
Definition udp_readfull (chunk : nat -> N) (n : N) (x : udpc * unet) : (perr + bytes) * (udpc * unet) :=
  match udp_take chunk (udp_fuel x) n x with
  | ((got, None), x') => (inr got, x')
  | ((_, Some REof), x') => (inl EShort, x')
  | ((_, Some RErr), x') => (inl EIO, x')
  end.
Definition udp_copy (chunk : nat -> N) (n : N) (x : udpc * unet) : (bytes * option perr) * (udpc * unet) :=
  match udp_take chunk (udp_fuel x) n x with
  | ((got, None), x') | ((got, Some REof), x') => ((got, None), x')
  | ((got, Some RErr), x') => ((got, Some EIO), x')
  end.

(** Sending one datagram; [send] tells whether the [i]-th attempt succeeds. *)
Definition net_send (send : nat -> bytes -> bool) (dst : option bytes) (b : bytes) (n : unet) : bool * unet :=
  let ok := negb (n_closed n) && send (n_step n) b in
  (ok, {| n_in := n_in n; n_out := if ok then n_out n ++ [(dst, b)] else n_out n; n_step := S (n_step n);
          n_closed := n_closed n |}).
Definition u_set_read (u : udpc) (b : bool) : udpc :=
  {| u_read := b; u_addr := u_addr u; u_rbuf := u_rbuf u; u_wbuf := u_wbuf u; u_buffered := u_buffered u |}.
Definition u_set_wbuf (u : udpc) (b : bytes) : udpc :=
  {| u_read := u_read u; u_addr := u_addr u; u_rbuf := u_rbuf u; u_wbuf := b; u_buffered := u_buffered u |}.

(** udp.go:62-74 [Write]: the number of octets written, and whether it succeeded.
    A client's socket is connected, so [conn.Write] is used. *)
Definition udp_write (send : nat -> bytes -> bool) (b : bytes) (x : udpc * unet) : (N * bool) * (udpc * unet) :=
  let '(u, n) := x in
  if u_buffered u then ((lenN b, true), (u_set_wbuf u (u_wbuf u ++ b), n))
  else let '(ok, n') := net_send send None b n in
       ((if ok then lenN b else 0, ok), (u_set_read u false, n')).

(** udp.go:90-106 [Close] *)
Definition udp_close (send : nat -> bytes -> bool) (x : udpc * unet) : bool * (udpc * unet) :=
  let '(u, n) := x in
  match u_wbuf u with
  | [] => (true, x)
  | _ => let '(ok, n') := net_send send (Some (u_addr u)) (u_wbuf u) n in
         (ok, (if ok then u_set_wbuf (u_set_read u false) [] else u_set_read u false, n'))
  end.

(** * The server: a request program on such a connection *)
Section server.
Variables (C : Crypto) (E : senv) (hostof : bytes -> option bytes) (chunk : nat -> N) (send : nat -> bytes -> bool).

Definition uexec {R} (e : seff R) (x : udpc * unet) (s : sst) : R * ((udpc * unet) * sst) :=
  match e in seff R return (R * ((udpc * unet) * sst)) -> R * ((udpc * unet) * sst) with
  | SRead n => fun _ => let '(r, x') := udp_readfull chunk n x in (r, (x', s))
  | SCopy n => fun _ => let '(r, x') := udp_copy chunk n x in (r, (x', s))
  | SWrite b => fun _ =>
      let '((k, ok), x') := udp_write send b x in
      ((k, if ok then None else Some WOther), (x', add_sent (tick s) b k))
  | SHost => fun _ => (hostof (u_addr (fst x)), (x, s))
  | _ => fun d => d
  end (let '(r, s') := sexec C E e s in (r, (x, s'))).

Fixpoint urun {A} (p : sprog A) (x : udpc * unet) (s : sst) : option A * ((udpc * unet) * sst) :=
  match p with
  | SRet a => (Some a, (x, s))
  | SPanic => (None, (x, s))
  | SDo e k => let '(r, (x', s')) := uexec e x s in urun (k r) x' s'
  end.

(** server.go:277-333: receive a datagram, handle it, send the answer; a panic is
    recovered after the deferred Close. [None]: nothing was received. *)
Definition udp_exchange (n : unet) (s : sst) : option (option bool * bool) * (unet * sst) :=
  match udp_receive (new_udp true, n) with
  | (false, (_, n')) => (None, (n', s))
  | (true, x) =>
      let '(r, (x', s')) := urun (one_request C) x s in
      let '(ok, (_, n')) := udp_close send x' in (Some (r, ok), (n', s'))
  end.
End server.

(** * The client *)
Section client.
Variables (C : Crypto) (E : cenv) (chunk : nat -> N) (send : nat -> bytes -> bool).

Definition ucexec {R} (e : ceff R) (x : udpc * unet) (s : cst) : R * ((udpc * unet) * cst) :=
  match e in ceff R return (R * ((udpc * unet) * cst)) -> R * ((udpc * unet) * cst) with
  | CRead n => fun _ => let '(r, x') := udp_readfull chunk n x in (r, (x', s))
  | CCopy n => fun _ => let '(r, x') := udp_copy chunk n x in (r, (x', s))
  | CWrite b => fun _ =>
      let '((k, ok), x') := udp_write send b x in ((k, negb ok), (x', c_add_sent (c_tick s) b k))
  | _ => fun d => d
  end (let '(r, s') := cexec C E e s in (r, (x, s'))).

Fixpoint ucrun {A} (p : cprog A) (x : udpc * unet) (s : cst) : option A * ((udpc * unet) * cst) :=
  match p with
  | CRet a => (Some a, (x, s))
  | CPanic => (None, (x, s))
  | CDo e k => let '(r, (x', s')) := ucexec e x s in ucrun (k r) x' s'
  end.
End client.
