(** /repo/secret/secret.go: the replay window. *)
From Verif Require Import Bytes.

(** secret.go:16 *)
Definition replay_window_size : N := 64.

(** secret.go:20-24 [ReplayWindow] (the mutex is in [ReplayConc]). *)
Record window := { w_highest : N; w_bitmap : N }.
Definition new_window : window := {| w_highest := 0; w_bitmap := 0 |}.

(** secret.go:30-61 [CheckAndUpdate]; uint64 arithmetic. [counter - w.highest] and
    [w.highest - counter] are only computed when they do not wrap. *)
Definition check_and_update (w : window) (counter : N) : bool * window :=
  if counter =? 0 then (false, w)
  else if w_highest w <? counter then
    let shift := counter - w_highest w in
    (true, {| w_highest := counter;
              w_bitmap := if replay_window_size <=? shift then 1
                          else N.lor ((N.shiftl (w_bitmap w) shift) mod two64) 1 |})
  else
    let diff := w_highest w - counter in
    if replay_window_size <=? diff then (false, w)
    else
      let mask := (N.shiftl 1 diff) mod two64 in
      if negb (N.land (w_bitmap w) mask =? 0) then (false, w)
      else (true, {| w_highest := w_highest w; w_bitmap := N.lor (w_bitmap w) mask |}).

(** A history of calls: the answers and the final window. *)
Fixpoint checks (w : window) (cs : list N) : list bool * window :=
  match cs with
  | [] => ([], w)
  | c :: cs' =>
      let '(r, w1) := check_and_update w c in
      let '(rs, w2) := checks w1 cs' in (r :: rs, w2)
  end.
