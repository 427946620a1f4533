(** Vocabulary for UDP. *)
From Verif Require Import Bytes Parser Crypto Wire WireSeq Server ServerSeq SpecServer Keys Client ClientSeq Udp.

(** What a server sees of a datagram from [a] if the datagram is all there is: the
    transport takes every write. *)
Definition dgram_env (E : senv) (host : option bytes) : senv := {|
  e_host := host; e_end := EndEOF; e_write := fun _ b => (lenN b, None); e_gen := e_gen E; e_store := e_store E;
  e_handler := e_handler E; e_sign := e_sign E; e_fetch := e_fetch E; e_quit := e_quit E |}.

(** A client on a UDP socket: not buffered, and the write buffer unused. *)
Definition udp_client (u : udpc) : Prop := u_buffered u = false /\ u_wbuf u = [].

(** A datagram [d] from [a] arrives. *)
Definition arrive (a d : bytes) (n : unet) : unet :=
  {| n_in := n_in n ++ [(a, d)]; n_out := n_out n; n_step := n_step n; n_closed := n_closed n |}.

(** Exchanges of one Write and one Read each on a UDP client; the reply [f c] to
    the request with counter [c] arrives right after the request was sent. *)
Fixpoint udp_exchanges (C : Crypto) (E : cenv) (chunk : nat -> N) (send : nat -> bytes -> bool) (o : copts) (ses : csession)
  (n : N) (a : bytes) (f : N -> bytes) (ps : list bytes) (x : udpc * unet) (s : cst) : list (option rd_result) :=
  match ps with
  | [] => []
  | p :: ps' =>
      let '(_, ((u, net), s1)) := ucrun C E chunk send (client_write C o ses p) x s in
      let '(r, (x', s2)) := ucrun C E chunk send (client_read C o ses n) (u, arrive a (f (c_last s1)) net) s1 in
      r :: udp_exchanges C E chunk send o ses n a f ps' x' s2
  end.

(** Any number of Reads in a row. *)
Fixpoint udp_reads (C : Crypto) (E : cenv) (chunk : nat -> N) (send : nat -> bytes -> bool) (o : copts) (ses : csession)
  (n : N) (k : nat) (x : udpc * unet) (s : cst) : list (option rd_result) * ((udpc * unet) * cst) :=
  match k with
  | O => ([], (x, s))
  | S k' =>
      let '(r, (x1, s1)) := ucrun C E chunk send (client_read C o ses n) x s in
      let '(rs, z) := udp_reads C E chunk send o ses n k' x1 s1 in (r :: rs, z)
  end.
(** Exchanges of one Write and any positive number of Reads. *)
Fixpoint udp_rounds (C : Crypto) (E : cenv) (chunk : nat -> N) (send : nat -> bytes -> bool) (o : copts) (ses : csession)
  (n : N) (a : bytes) (f : N -> bytes) (ps : list (bytes * nat)) (x : udpc * unet) (s : cst) : list (list (option rd_result)) :=
  match ps with
  | [] => []
  | (p, k) :: ps' =>
      let '(_, ((u, net), s1)) := ucrun C E chunk send (client_write C o ses p) x s in
      let '(rs, (x', s2)) := udp_reads C E chunk send o ses n (S k) (u, arrive a (f (c_last s1)) net) s1 in
      rs :: udp_rounds C E chunk send o ses n a f ps' x' s2
  end.
