(** CheckAndUpdate executed by several goroutines, one memory access at a time.

    Every access to the fields of the window and every operation of the mutex is
    one step. Any goroutine may be scheduled at any time; Lock blocks (the step
    does nothing) while another goroutine holds the mutex. *)
From Verif Require Import Bytes Replay.

(** Where a goroutine is in secret.go:30-61; local variables are arguments. *)
Inductive pc :=
| PStart (c : N)              (* 31: before anything *)
| P38 (c : N)                 (* 38: read highest *)
| P39 (c : N)                 (* 39: read highest again, compute shift *)
| P41 (c : N)                 (* 41: write bitmap := 1 *)
| P43r (c shift : N)          (* 43: read bitmap *)
| P43w (c v : N)              (* 43: write bitmap *)
| P45 (c : N)                 (* 45: write highest *)
| P49 (c : N)                 (* 49: read highest, compute diff *)
| P55 (mask : N)              (* 55: read bitmap, test *)
| P59r (mask : N)             (* 59: read bitmap *)
| P59w (v : N)                (* 59: write bitmap *)
| PUnlock (r : bool)          (* 36: deferred Unlock *)
| PDone (r : bool).

(** A step inside the critical section. *)
Definition crit_step (p : pc) (w : window) : pc * window :=
  match p with
  | P38 c => (if w_highest w <? c then P39 c else P49 c, w)
  | P39 c => let shift := c - w_highest w in
             (if replay_window_size <=? shift then P41 c else P43r c shift, w)
  | P41 c => (P45 c, {| w_highest := w_highest w; w_bitmap := 1 |})
  | P43r c shift => (P43w c (N.lor ((N.shiftl (w_bitmap w) shift) mod two64) 1), w)
  | P43w c v => (P45 c, {| w_highest := w_highest w; w_bitmap := v |})
  | P45 c => (PUnlock true, {| w_highest := c; w_bitmap := w_bitmap w |})
  | P49 c => let diff := w_highest w - c in
             (if replay_window_size <=? diff then PUnlock false
              else P55 ((N.shiftl 1 diff) mod two64), w)
  | P55 mask => (if negb (N.land (w_bitmap w) mask =? 0) then PUnlock false else P59r mask, w)
  | P59r mask => (P59w (N.lor (w_bitmap w) mask), w)
  | P59w v => (PUnlock true, {| w_highest := w_highest w; w_bitmap := v |})
  | _ => (p, w)
  end.

Record rstate := { r_lock : option nat; r_win : window; r_pc : nat -> pc }.

Definition upd {A} (f : nat -> A) (t : nat) (v : A) : nat -> A :=
  fun t' => if Nat.eqb t' t then v else f t'.

(** One step of goroutine [t]. *)
Definition rstep (s : rstate) (t : nat) : rstate :=
  match r_pc s t with
  | PStart c =>
      if c =? 0 then {| r_lock := r_lock s; r_win := r_win s; r_pc := upd (r_pc s) t (PDone false) |}
      else match r_lock s with
           | None => {| r_lock := Some t; r_win := r_win s; r_pc := upd (r_pc s) t (P38 c) |}
           | Some _ => s
           end
  | PUnlock r => {| r_lock := None; r_win := r_win s; r_pc := upd (r_pc s) t (PDone r) |}
  | PDone _ => s
  | p => let '(p', w') := crit_step p (r_win s) in
         {| r_lock := r_lock s; r_win := w'; r_pc := upd (r_pc s) t p' |}
  end.

(** Goroutine [t] presents counter [f t] to the window [w]. *)
Definition rinit (w : window) (f : nat -> N) : rstate :=
  {| r_lock := None; r_win := w; r_pc := fun t => PStart (f t) |}.

Definition rrun (s : rstate) (sched : list nat) : rstate := fold_left rstep sched s.

Definition answer (s : rstate) (t : nat) : option bool :=
  match r_pc s t with PDone r => Some r | _ => None end.
