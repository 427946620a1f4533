(** Any number of clients at once, some sharing a session (client.go:114-121 and
    client_pool.go:68-93), with any number of Reads and Writes in progress on each.

    Every Read or Write in progress is an instance; any instance may perform its
    next effect at any time, and new ones may start at any time. The counter of a
    session is an atomic.Uint64; the fields lastSentCounter and buffer of a Client
    are read and written in single steps (a data race on them, possible when one
    Client is used by several goroutines, is taken to do no worse than that). The
    network answers arbitrarily. A session starts with counter 0 and a client with
    lastSentCounter 0 and an empty buffer (client.go:299-304, 169-176). *)
From Verif Require Import Bytes Parser Crypto Wire Server Keys Client.

(** Which client uses which session; never changes once a client is in use. *)
Record world := { w_session : nat -> nat; w_secret : nat -> csession; w_opts : nat -> copts }.

Inductive op := OpRead (n : N) | OpWrite (p : bytes).

(** What an instance did, with the answers it got. *)
Inductive kev :=
| KRead (b : bytes)                        (* octets taken from the network *)
| KAdd (s : nat) (c : N)
| KSetLast (cl : nat) (c : N)
| KGetLast (cl : nat) (c : N)
| KGetBuf (cl : nat) (b : bytes)
| KSetBuf (cl : nat) (b : bytes)
| KSeal (s : nat) (c : N) (key nonce pt ct : bytes)
| KWrite (b : bytes) (n : N)
| KOther.

Definition kev_of (W : world) (cl : nat) {R} (e : ceff R) : R -> kev :=
  match e in ceff R return R -> kev with
  | CRead _ => fun r => match r with inl _ => KOther | inr b => KRead b end
  | CCopy _ => fun r => KRead (fst r)
  | CWrite b => fun r => KWrite b (fst r)
  | CAdd => fun r => KAdd (w_session W cl) r
  | CSetLast c => fun _ => KSetLast cl c
  | CGetLast => fun r => KGetLast cl r
  | CGetBuf => fun r => KGetBuf cl r
  | CSetBuf b => fun _ => KSetBuf cl b
  | CSeal c key nonce pt => fun r => KSeal (w_session W cl) c key nonce pt r
  | CAlloc _ | CDeadline | CFetch _ | CRand | CGen => fun _ => KOther
  end.

Record cinst := { o_client : nat; o_op : op; o_prog : cprog (rd_result + wr_result) }.

Definition op_prog (C : Crypto) (W : world) (cl : nat) (o : op) : cprog (rd_result + wr_result) :=
  let ses := w_secret W (w_session W cl) in
  match o with
  | OpRead n => doc r <- client_read C (w_opts W cl) ses n; CRet (inl r)
  | OpWrite p => doc r <- client_write C (w_opts W cl) ses p; CRet (inr r)
  end.

(** The trace lists the newest event first. *)
Record kst := {
  k_ctr : nat -> N; k_last : nat -> N; k_buf : nat -> bytes;
  k_inst : nat -> option cinst; k_trace : list (nat * kev) }.
Definition k0 : kst :=
  {| k_ctr := fun _ => 0; k_last := fun _ => 0; k_buf := fun _ => []; k_inst := fun _ => None; k_trace := [] |}.

Definition upd {A} (f : nat -> A) (i : nat) (v : A) : nat -> A := fun j => if Nat.eqb j i then v else f j.
Definition k_set_ctr (k : kst) (s : nat) (v : N) : kst :=
  {| k_ctr := upd (k_ctr k) s v; k_last := k_last k; k_buf := k_buf k; k_inst := k_inst k; k_trace := k_trace k |}.
Definition k_set_last (k : kst) (cl : nat) (v : N) : kst :=
  {| k_ctr := k_ctr k; k_last := upd (k_last k) cl v; k_buf := k_buf k; k_inst := k_inst k; k_trace := k_trace k |}.
Definition k_set_buf (k : kst) (cl : nat) (v : bytes) : kst :=
  {| k_ctr := k_ctr k; k_last := k_last k; k_buf := upd (k_buf k) cl v; k_inst := k_inst k; k_trace := k_trace k |}.
Definition k_set_inst (k : kst) (i : nat) (v : cinst) : kst :=
  {| k_ctr := k_ctr k; k_last := k_last k; k_buf := k_buf k; k_inst := upd (k_inst k) i (Some v); k_trace := k_trace k |}.
Definition k_log (k : kst) (i : nat) (x : kev) : kst :=
  {| k_ctr := k_ctr k; k_last := k_last k; k_buf := k_buf k; k_inst := k_inst k; k_trace := (i, x) :: k_trace k |}.

(** Possible answers to an effect and the shared state after it. *)
Definition kans (C : Crypto) (W : world) (cl : nat) (k : kst) {R} (e : ceff R) : R -> kst -> Prop :=
  match e in ceff R return R -> kst -> Prop with
  | CRead n => fun r k' => k' = k /\ match r with inl _ => True | inr b => lenN b = n end
  | CCopy n => fun r k' => k' = k /\ lenN (fst r) <= n
  | CAdd => fun r k' => let s := w_session W cl in
      r = (k_ctr k s + 1) mod two64 /\ k' = k_set_ctr k s r
  | CSetLast c => fun _ k' => k' = k_set_last k cl c
  | CGetLast => fun r k' => k' = k /\ r = k_last k cl
  | CGetBuf => fun r k' => k' = k /\ r = k_buf k cl
  | CSetBuf b => fun _ k' => k' = k_set_buf k cl b
  | CSeal _ key nonce pt => fun r k' => k' = k /\ r = gcm_seal C key nonce pt
  | CAlloc _ | CWrite _ | CDeadline | CFetch _ | CRand | CGen => fun _ k' => k' = k
  end.

Inductive kstep (C : Crypto) (W : world) (k : kst) : kst -> Prop :=
| KSpawn i cl o : k_inst k i = None ->
    kstep C W k (k_set_inst k i {| o_client := cl; o_op := o; o_prog := op_prog C W cl o |})
| KStep i v R (e : ceff R) f r k' : k_inst k i = Some v -> o_prog v = CDo e f ->
    kans C W (o_client v) k e r k' ->
    kstep C W k (k_log (k_set_inst k' i {| o_client := o_client v; o_op := o_op v; o_prog := f r |}) i
                       (kev_of W (o_client v) e r)).

Inductive kreachable (C : Crypto) (W : world) : kst -> Prop :=
| KInit : kreachable C W k0
| KNext k k' : kreachable C W k -> kstep C W k k' -> kreachable C W k'.
