(** What is opened and started, and what is closed and stopped again:
    /repo/client.go:137-225, 419-433 (dialling), /repo/client_pool.go:71-97,
    /repo/key/client_fetcher.go:187-225 (dialling of the protocol fetcher),
    /repo/internal/net/udp.go:89-106, /repo/server.go:105-134, 338-347 and
    /repo/secret/secret.go:126-158, 183-189 (constructors and Close).

    Programs of a small free monad over the calls of the net package; whether a
    call succeeds is decided by the environment. Simplified: closing a socket
    releases it even if an error is reported, as in Go; the handshake is one
    step (its details are in [Client.handshake]); options are the values they
    set. *)
From Verif Require Import Bytes.

Inductive deff : Type -> Type :=
| DResolve : deff bool                              (* net.ResolveTCPAddr, net.ResolveUDPAddr *)
| DConnect : deff (option nat)                      (* net.DialTCP, net.DialUDP: the socket *)
| DKeepAlive (k : nat) : deff bool                  (* conn.SetKeepAlive *)
| DTalk (k : nat) : deff bool                       (* requests and responses: handshake, fetch key *)
| DClose (k : nat) : deff bool.                     (* Close of the socket *)

Inductive dprog (A : Type) : Type :=
| DRet (a : A) : dprog A
| DDo {R : Type} (e : deff R) (f : R -> dprog A) : dprog A.
Arguments DRet {A} a.
Arguments DDo {A R} e f.
Fixpoint dbind {A B} (p : dprog A) (f : A -> dprog B) : dprog B :=
  match p with
  | DRet a => f a
  | DDo e k => DDo e (fun r => dbind (k r) f)
  end.
Notation "'dod' x <- p ; q" := (dbind p (fun x => q)) (at level 200, x name, p at level 100, q at level 200).
Definition ddo {R} (e : deff R) : dprog R := DDo e (fun r => DRet r).

Inductive net := TCP | UDP.
(** A client: its kind of connection and its socket. *)
Definition conn_of : Type := (net * nat)%type.

(** client.go:151-181 [dialTCP]: None is an error. *)
Definition dial_tcp_raw : dprog (option conn_of) :=
  dod ok <- ddo DResolve;
  if negb ok then DRet None
  else
    dod k <- ddo DConnect;
    match k with
    | None => DRet None
    | Some k =>
        dod ok <- ddo (DKeepAlive k);
        if negb ok then DRet None                   (* the socket is forgotten *)
        else DRet (Some (TCP, k))
    end.
(** client.go:199-225 [dialUDP] *)
Definition dial_udp_raw : dprog (option conn_of) :=
  dod ok <- ddo DResolve;
  if negb ok then DRet None
  else
    dod k <- ddo DConnect;
    match k with
    | None => DRet None
    | Some k => DRet (Some (UDP, k))
    end.
(** client.go:426-433 [close]. Close of a UDPConn whose write buffer is empty, as
    it always is without buffered writes, does nothing (udp.go:90-93). *)
Definition close_client (c : conn_of) : dprog bool :=
  match fst c with
  | TCP => ddo (DClose (snd c))
  | UDP => DRet true
  end.
(** client.go:137-149 [DialTCP], 185-197 [DialUDP] *)
Definition with_handshake (raw : dprog (option conn_of)) : dprog (option conn_of) :=
  dod c <- raw;
  match c with
  | None => DRet None
  | Some c =>
      dod ok <- ddo (DTalk (snd c));
      if ok then DRet (Some c)
      else dod _ <- close_client c; DRet None
  end.
Definition dial_tcp := with_handshake dial_tcp_raw.
Definition dial_udp := with_handshake dial_udp_raw.
(** client_pool.go:74-95: the first connection of a pool makes the session. *)
Definition pool_dial (has_session : bool) : dprog (option conn_of) :=
  if has_session then dial_tcp_raw else dial_tcp.
(** key/client_fetcher.go:187-225 with the rest of Fetch: the socket itself, not
    the UDPConn, is closed when Fetch returns. *)
Definition fetch_over (known_network : bool) : dprog bool :=
  if negb known_network then DRet false
  else
    dod ok <- ddo DResolve;
    if negb ok then DRet false
    else
      dod k <- ddo DConnect;
      match k with
      | None => DRet false
      | Some k =>
          dod ok <- ddo (DTalk k);
          dod _ <- ddo (DClose k);
          DRet ok
      end.

(** The environment and the open sockets. *)
Record denv := {
  de_resolve : nat -> bool; de_connect : nat -> bool; de_keepalive : nat -> bool; de_talk : nat -> bool; de_close : nat -> bool }.
Record dst := { d_step : nat; d_next : nat; d_open : list nat }.
Definition d_tick (s : dst) : dst := {| d_step := S (d_step s); d_next := d_next s; d_open := d_open s |}.
Definition dexec (E : denv) {R} (e : deff R) (s : dst) : R * dst :=
  match e with
  | DResolve => (de_resolve E (d_step s), d_tick s)
  | DConnect => if de_connect E (d_step s)
                then (Some (d_next s), {| d_step := S (d_step s); d_next := S (d_next s); d_open := d_next s :: d_open s |})
                else (None, d_tick s)
  | DKeepAlive _ => (de_keepalive E (d_step s), d_tick s)
  | DTalk _ => (de_talk E (d_step s), d_tick s)
  | DClose k => (de_close E (d_step s),
      {| d_step := S (d_step s); d_next := d_next s; d_open := filter (fun x => negb (Nat.eqb x k)) (d_open s) |})
  end.
Fixpoint drun (E : denv) {A} (p : dprog A) (s : dst) : A * dst :=
  match p with
  | DRet a => (a, s)
  | DDo e k => let '(r, s') := dexec E e s in drun E (k r) s'
  end.

(** * Servers and secret managers *)
(** What is running: collectors, by number. [Crash]: a goroutine panicked, which
    ends the process. *)
Record gst := { g_next : nat; g_running : list nat }.
Inductive gres (A : Type) := GOk (a : A) (s : gst) | GCrash.
Arguments GOk {A} a s.
Arguments GCrash {A}.

(** A secret manager: one of the user's, or the in-memory one with its collector,
    if it has one. *)
Inductive manager := MUser | MMemory (collector : option nat).

(** secret.go:126-158 [NewInMemoryManager]; time.NewTicker panics on intervals
    that are not positive. *)
Definition new_memory_manager (gc ttl : Z) (s : gst) : gres manager :=
  if (0 <? ttl)%Z then
    if (0 <? gc)%Z then GOk (MMemory (Some (g_next s))) {| g_next := S (g_next s); g_running := g_next s :: g_running s |}
    else GCrash
  else GOk (MMemory None) s.
(** secret.go:182-189 [Close], and nothing for the user's managers. *)
Definition close_manager (m : manager) (s : gst) : gst :=
  match m with
  | MMemory (Some g) => {| g_next := g_next s; g_running := filter (fun x => negb (Nat.eqb x g)) (g_running s) |}
  | _ => s
  end.
(** server.go:105-134 [NewServer]: the defaults, with a manager of one minute and
    15 minutes (in nanoseconds), are made before the options are applied; [opt] is
    the manager an option sets. *)
Definition new_server (opt : option manager) (s : gst) : gres manager :=
  match new_memory_manager 60000000000 900000000000 s with
  | GCrash => GCrash
  | GOk m s' => GOk (match opt with Some m' => m' | None => m end) s'
  end.
(** server.go:338-347 [Close], once no connection is left. *)
Definition close_server (m : manager) (s : gst) : gst := close_manager m s.
