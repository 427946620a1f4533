(** The address a handler is given (action_process.go:176: [conn.RemoteAddr()]; over
    UDP internal/net/udp.go:109-111: the source of the datagram last received,
    udp.go:77-87). A run as [urun] in Udp.v; only what the handler is called with is
    written down: the address and the message. *)
From Verif Require Import Bytes Parser Crypto Wire Server ServerSeq Udp.

Section told.
Variables (C : Crypto) (E : senv) (hostof : bytes -> option bytes) (chunk : nat -> N) (send : nat -> bytes -> bool).

Definition told_by {R} (e : seff R) (x : udpc * unet) : list (bytes * bytes) :=
  match e with SHandler _ _ _ m => [(u_addr (fst x), m)] | _ => [] end.
Fixpoint told {A} (p : sprog A) (x : udpc * unet) (s : sst) : list (bytes * bytes) :=
  match p with
  | SDo e k => told_by e x ++ let '(r, (x', s')) := uexec C E hostof chunk send e x s in told (k r) x' s'
  | _ => []
  end.
(** server.go:277-333, as [udp_exchange] *)
Definition told_exchange (n : unet) (s : sst) : list (bytes * bytes) :=
  match udp_receive (new_udp true, n) with
  | (false, _) => []
  | (true, x) => told (one_request C) x s
  end.
End told.
