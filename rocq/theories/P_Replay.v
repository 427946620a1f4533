(** Properties C18-C22: the replay window. *)
From Verif Require Import Bytes Replay SpecReplay ReplayProofs ReplayConc ReplayConcProofs.

(** The whole history of answers is that of the set-based filter of width 64. *)
Theorem C18_window_is_filter : forall cs rs w,
  Forall (fun c => c < 2 ^ 64) cs ->
  checks new_window cs = (rs, w) ->
  exists seen, filter_run 64 [] cs rs seen.
Proof. exact checks_filter. Qed.
Print Assumptions C18_window_is_filter.
Theorem C18_next_answer : forall hist c,
  Forall (fun x => x < 2 ^ 64) hist -> c < 2 ^ 64 ->
  let '(rs, w) := checks new_window hist in
  let seen := accepted hist rs in
  (fst (check_and_update w c) = true <-> c <> 0 /\ ~ In c seen /\ highest seen < c + 64) /\
  (fst (check_and_update w c) = false -> snd (check_and_update w c) = w).
Proof. exact next_answer. Qed.
Print Assumptions C18_next_answer.
Example C18_example :
  fst (checks new_window [5; 5; 3; 0; 2 ^ 64 - 1; 2 ^ 64 - 64; 2 ^ 64 - 65; 3]) =
  [true; false; true; false; true; true; false; false].
Proof. vm_compute. reflexivity. Qed.

Theorem C19_no_counter_twice : forall hist rs w,
  Forall (fun x => x < 2 ^ 64) hist ->
  checks new_window hist = (rs, w) -> NoDup (accepted hist rs).
Proof. exact no_counter_twice. Qed.
Print Assumptions C19_no_counter_twice.
Example C19_example :
  let h := [7; 3; 7; 100; 3; 37; 36; 37; 100] in
  fst (checks new_window h) = [true; true; false; true; false; true; false; false; false] /\
  accepted h (fst (checks new_window h)) = [7; 3; 100; 37].
Proof. vm_compute. auto. Qed.

Theorem C20_reordering_accepted : forall cs,
  Forall (fun c => 0 < c < 2 ^ 64) cs -> NoDup cs ->
  (forall before c after, cs = before ++ c :: after -> forall x, In x before -> x < c + 64) ->
  fst (checks new_window cs) = repeat true (length cs).
Proof. exact reordering_accepted. Qed.
Print Assumptions C20_reordering_accepted.
Theorem C20_increasing_accepted : forall cs,
  increasing 0 cs -> Forall (fun c => c < 2 ^ 64) cs ->
  fst (checks new_window cs) = repeat true (length cs).
Proof. exact increasing_accepted. Qed.
Print Assumptions C20_increasing_accepted.
Example C20_example :
  let cs := [64; 1; 63; 2; 65] in
  Forall (fun c => 0 < c < 2 ^ 64) cs /\ NoDup cs /\
  (forall before c after, cs = before ++ c :: after -> forall x, In x before -> x < c + 64) /\
  increasing 0 [1; 2; 500; 2 ^ 63].
Proof.
  cbv zeta. repeat split; try (repeat constructor; reflexivity).
  - repeat constructor; cbn; intuition congruence.
  - intros before c after E x Hin.
    do 5 (destruct before as [|? before]; cbn in E, Hin;
          [injection E as <- _; repeat (destruct Hin as [<-|Hin]; [reflexivity|]); destruct Hin
          |injection E as <- E]).
    destruct before; discriminate E.
Qed.

(** Of the 64 counters immediately below the highest only 63 are tracked: the
    comment at secret.go:11 and the specification count one more. *)
Theorem C21_window_64_behind_refuted : forall h, 64 < h -> h < 2 ^ 64 ->
  fst (checks new_window [h; h - 64]) = [true; false] /\
  fst (checks new_window [h; h - 63]) = [true; true].
Proof. exact window_is_63. Qed.
Print Assumptions C21_window_64_behind_refuted.
Example C21_example : fst (checks new_window [65; 1]) = [true; false].
Proof. vm_compute. reflexivity. Qed.

(** Any interleaving of the memory accesses of any number of callers gives the
    answers of some one-after-the-other order, in which a caller that returned
    before another acquired the mutex comes first. *)
Theorem C22_serialisable : forall w0 f sched1 sched2, exists order more,
  linearised w0 f (rrun (rinit w0 f) sched1) order /\
  linearised w0 f (rrun (rinit w0 f) (sched1 ++ sched2)) (order ++ more).
Proof. exact linearisable. Qed.
Print Assumptions C22_serialisable.
Theorem C22_at_most_one_winner : forall f sched t1 t2,
  (forall t, f t < 2 ^ 64) -> f t1 = f t2 ->
  answer (rrun (rinit new_window f) sched) t1 = Some true ->
  answer (rrun (rinit new_window f) sched) t2 = Some true -> t1 = t2.
Proof. exact at_most_one_winner. Qed.
Print Assumptions C22_at_most_one_winner.
Theorem C22_exactly_one_winner : forall c n sched,
  0 < c -> c < 2 ^ 64 -> (0 < n)%nat ->
  let s := rrun (rinit new_window (fun t => if Nat.ltb t n then c else 0)) sched in
  (forall t, (t < n)%nat -> answer s t <> None) ->
  exists t, (t < n)%nat /\ answer s t = Some true /\
    forall t', (t' < n)%nat -> t' <> t -> answer s t' = Some false.
Proof. exact exactly_one_winner. Qed.
Print Assumptions C22_exactly_one_winner.
Example C22_example :
  let s := rrun (rinit new_window (fun t => if Nat.ltb t 3 then 9 else 0))
                [0;1;2;1;0;1;0;0;2;0;0;0;2;1;2;2;1;2;2;2;1;1;1;1;1;1]%nat in
  map (answer s) [0;1;2]%nat = [Some true; Some false; Some false].
Proof. vm_compute. reflexivity. Qed.
