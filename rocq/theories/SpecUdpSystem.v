(** Vocabulary for a conversation over UDP among others. *)
From Verif Require Import Bytes Crypto Wire Server ServerSeq MultiConn Client ClientSeq SpecMulti Udp UdpSystem.

(** The client is about to dial on a new socket; datagrams of others may already
    wait at the server. *)
Definition udialling (C : Crypto) (waiting : list (bytes * bytes)) (m : mem) {A} (p : cprog A) : usys A :=
  {| v_cl := p;
     v_cx := (new_udp false, {| n_in := []; n_out := []; n_step := 0; n_closed := false |});
     v_cs := {| c_in := []; c_step := 0; ClientSeq.c_sent := []; c_ctr := 0; c_last := 0; c_buf := []; c_seals := [] |};
     v_q := waiting;
     v_srv := {| t_mem := m; t_conn := fun _ => fresh_conn C false [] |};
     v_from := fun _ => []; v_done := fun _ => false; v_mine := 0; v_others := 0 |}.

(** Moves of the client and of the server on its behalf. *)
Definition mine (me : bytes) {A} (x : usys A) (v : umove) : bool :=
  match v with
  | UClient => true
  | UReceive => match v_q x with (a, _) :: _ => bytes_eqb a me | [] => false end
  | UStep j | UAnswer j => Nat.even j
  | UArrive _ _ | UCollect _ => false
  end.

Section Runs.
Variables (C : Crypto) (CE : cenv) (E : nat -> senv) (hostof : bytes -> option bytes) (chunk : nat -> N) (me srv : bytes).
Notation move := (usys_move C CE E hostof chunk me srv).

(** In the course of a schedule no goroutine of a datagram of somebody else uses
    the entry [key] of the secret manager, and it is not collected. *)
Definition uspares1 (key : bytes) {A} (x : usys A) (v : umove) : Prop :=
  match v with
  | UStep j => Nat.even j = false -> next_key (c_prog (t_conn (v_srv x) j)) <> Some key
  | UCollect k => k <> key
  | _ => True
  end.
Fixpoint uspares (key : bytes) {A} (sched : list umove) (x : usys A) : Prop :=
  match sched with
  | [] => True
  | v :: l => uspares1 key x v /\ match move x v with Some y => uspares key l y | None => True end
  end.

(** How often the client and the server on its behalf move. *)
Fixpoint uown_moves {A} (sched : list umove) (x : usys A) : nat :=
  match sched with
  | [] => 0
  | v :: l => (if mine me x v then 1 else 0) + match move x v with Some y => uown_moves l y | None => 0 end
  end.

(** Nothing of the client is under way: it cannot move, nor any goroutine that
    serves it, and none of its datagrams waits. *)
Definition urests {A} (x : usys A) : Prop :=
  (forall v, mine me x v = true -> move x v = None) /\ Forall (fun p => fst p <> me) (v_q x).
End Runs.

(** What the application saw of the client's datagrams, in their order. *)
Definition ucalls {A} (x : usys A) : list (N * bool * bytes) :=
  flat_map (fun k => seen (c_calls (t_conn (v_srv x) (2 * k)))) (seq 0 (v_mine x)).
