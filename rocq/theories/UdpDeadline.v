(** The write deadline of a UDP listener: /repo/server.go:257-335. One socket
    serves all requests, so all goroutines set and meet the same deadline.

    Each goroutine: [time.Now()] (server.go:292), [SetWriteDeadline] (293), then
    parsing and the handler, which take any time, then [udpConn.Close], which
    sends the answer with one WriteTo (internal/net/udp.go:89-106). Steps of
    goroutines interleave in any order with the clock. Simplified: every request
    has an answer; a WriteTo fails if the deadline has passed and for no other
    reason. *)
From Verif Require Import Bytes.

Inductive upc := UNone | UStart | URef (t : N) | UWork (t : N) | UEnd.
Inductive uev := UTook (i : nat) (t : N) | USent (i : nat) (t : N) | ULost (i : nat) (t : N).
Record ust := { u_now : N; u_dl : option N; u_pc : nat -> upc; u_log : list uev }.
Definition ust0 : ust := {| u_now := 0; u_dl := None; u_pc := fun _ => UNone; u_log := [] |}.
Definition u_go (s : ust) (i : nat) (p : upc) : ust :=
  {| u_now := u_now s; u_dl := u_dl s; u_pc := fun j => if Nat.eqb i j then p else u_pc s j; u_log := u_log s |}.
Definition u_set (s : ust) (d : N) : ust :=
  {| u_now := u_now s; u_dl := Some d; u_pc := u_pc s; u_log := u_log s |}.
Definition u_say (s : ust) (e : uev) : ust :=
  {| u_now := u_now s; u_dl := u_dl s; u_pc := u_pc s; u_log := u_log s ++ [e] |}.

(** [UTook i t]: goroutine [i] read the clock for its deadline at [t]. *)
Inductive ustep (wto : N) (s : ust) : ust -> Prop :=
| U_clock t : u_now s <= t -> ustep wto s {| u_now := t; u_dl := u_dl s; u_pc := u_pc s; u_log := u_log s |}
| U_spawn i : u_pc s i = UNone -> ustep wto s (u_go s i UStart)
| U_ref i : u_pc s i = UStart -> ustep wto s (u_say (u_go s i (if 0 <? wto then URef (u_now s) else UWork (u_now s))) (UTook i (u_now s)))
| U_set i t : u_pc s i = URef t -> ustep wto s (u_set (u_go s i (UWork t)) (t + wto))
| U_close i t : u_pc s i = UWork t ->
    ustep wto s (u_say (u_go s i UEnd)
      (if match u_dl s with Some d => d <=? u_now s | None => false end then ULost i (u_now s) else USent i (u_now s))).

Inductive usteps (wto : N) : ust -> ust -> Prop :=
| us_refl s : usteps wto s s
| us_step s1 s2 s3 : usteps wto s1 s2 -> ustep wto s2 s3 -> usteps wto s1 s3.
