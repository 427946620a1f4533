(** Octets are used after they arrived and before the deadline. *)
From Verif Require Import Bytes BytesProofs Parser Crypto Wire Replay Server ServerSeq Keys Client ClientSeq
  Timed SpecTimed TimedProofs TimedClient.

Lemma taken_none (P : N -> Prop) inp arr : taken P inp inp arr arr.
Proof. exists [], []. repeat split. constructor. Qed.
Lemma taken_then (P : N -> Prop) a b c x y z : taken P a b x y -> taken P b c y z -> taken P a c x z.
Proof.
  intros (o1 & t1 & -> & -> & L1 & F1) (o2 & t2 & -> & -> & L2 & F2). exists (o1 ++ o2), (t1 ++ t2).
  rewrite !app_assoc, !app_length, L1, L2. repeat split. apply Forall_app. auto.
Qed.
Lemma taken_weaken (P Q : N -> Prop) a b x y : (forall n, P n -> Q n) -> taken P a b x y -> taken Q a b x y.
Proof. intros H (o & t & A & B & L & F). exists o, t. repeat split; auto. apply (Forall_impl _ H F). Qed.
Lemma taken_len (P : N -> Prop) a b x y : taken P a b x y -> length x = length a -> length y = length b.
Proof. intros (o & t & -> & -> & L & _). rewrite !app_length. lia. Qed.

Lemma latest_all l b : latest l <= b -> Forall (fun x => x <= b) l.
Proof.
  induction l as [|x l IH]; intros H; [constructor|]. change (N.max x (latest l) <= b) in H. constructor; [lia|apply IH; lia].
Qed.
Lemma takeN_firstn {A} n (l : list A) : takeN n l = firstn (N.to_nat n) l /\ dropN n l = skipn (N.to_nat n) l.
Proof.
  unfold takeN, dropN, lenN. destruct (N.leb_spec (N.of_nat (length l)) n); [|auto].
  rewrite firstn_all2, skipn_all2 by lia. auto.
Qed.
Lemma early_all d l : forall k, k <= early d l -> Forall (fun x => x < d) (takeN k l).
Proof.
  induction l as [|x l IH]; intros k Hk; rewrite (proj1 (takeN_firstn _ _)).
  - rewrite firstn_nil. constructor.
  - cbn [early] in Hk. destruct (N.to_nat k) as [|j] eqn:Ej; cbn [firstn]; [constructor|].
    destruct (N.ltb_spec x d); [|lia]. constructor; [assumption|].
    specialize (IH (N.of_nat j)). rewrite (proj1 (takeN_firstn _ _)), Nat2N.id in IH. apply IH. lia.
Qed.
Lemma takeN_all {A} n (l : list A) : lenN l <= n -> takeN n l = l /\ dropN n l = [].
Proof. unfold lenN. intros H. destruct (takeN_firstn n l) as [-> ->]. split; [apply firstn_all2|apply skipn_all2]; lia. Qed.
Lemma taken_by (P : N -> Prop) n inp arr : length arr = length inp -> Forall P (takeN n arr) ->
  taken P inp (dropN n inp) arr (dropN n arr).
Proof.
  intros L F. exists (takeN n inp), (takeN n arr). rewrite !takeN_dropN. repeat split; auto.
  rewrite (proj1 (takeN_firstn n inp)), (proj1 (takeN_firstn n arr)), !firstn_length, L. reflexivity.
Qed.

(** What a wait took. *)
Definition in_time (t t' : tio) (x : N) : Prop := x <= t_now t' /\ forall d, t_rd t = Some d -> x < d.
Lemma wait_took n inp t : length (t_arr t) = length inp ->
  taken (in_time t (snd (t_wait n inp t))) inp (dropN (match fst (t_wait n inp t) with None => n | Some k => k end) inp)
    (t_arr t) (t_arr (snd (t_wait n inp t))).
Proof.
  intros L. unfold t_wait. destruct (N.eqb_spec n 0) as [->|Hn]; [cbn [fst snd]; rewrite (proj2 (takeN_firstn 0 inp)); apply taken_none|].
  set (at_ := N.max (t_now t) (due n inp t)).
  assert (D : Forall (fun x => x <= at_) (takeN n (t_arr t))).
  { unfold at_, due. destruct (N.leb_spec n (lenN inp)).
    - apply latest_all. lia.
    - rewrite (proj1 (takeN_all n (t_arr t) ltac:(unfold lenN in *; lia))). apply latest_all. lia. }
  destruct (t_rd t) as [d|] eqn:Rd.
  - destruct (N.ltb_spec at_ d); cbn [fst snd].
    + apply taken_by; [exact L|]. apply (Forall_impl _ (P := fun x => x <= at_)); [|exact D].
      intros x Hx. split; [exact Hx|]. intros d' E. rewrite Rd in E. injection E as <-. lia.
    + destruct (N.ltb_spec (t_now t) d); apply taken_by; auto.
      * eapply Forall_impl; [|apply early_all, N.le_min_l]. intros x Hx. cbn in Hx. split; [cbn; lia|].
        intros d' E. rewrite Rd in E. injection E as <-. exact Hx.
      * rewrite (proj1 (takeN_firstn 0 _)). constructor.
  - cbn [fst snd]. apply taken_by; [exact L|]. apply (Forall_impl _ (P := fun x => x <= at_)); [|exact D].
    intros x Hx. split; [exact Hx|]. intros d' E. rewrite Rd in E. discriminate E.
Qed.

Lemma read_left n i e : snd (fl_read n i e) = dropN n i.
Proof. unfold fl_read. destruct (N.leb_spec n (lenN i)); [reflexivity|]. symmetry. apply takeN_all. lia. Qed.
Lemma copy_left n i e : snd (fl_copy n i e) = dropN n i.
Proof. unfold fl_copy. destruct (N.leb_spec n (lenN i)); [reflexivity|]. symmetry. apply takeN_all. lia. Qed.

Section client.
Variables (C : Crypto) (E : cenv) (delay : nat -> N).
Lemma tcexec_took dl {R} (e : ceff R) t s : match e with CDeadline => False | _ => True end -> length (t_arr t) = length (c_in s) ->
  let '(_, (t', s')) := tcexec C E delay dl e t s in taken (in_time t t') (c_in s) (c_in s') (t_arr t) (t_arr t').
Proof.
  intros ND L.
  destruct e; try contradiction; unfold tcexec.
  1,2: pose proof (wait_took n (c_in s) t L) as T; destruct (t_wait n (c_in s) t) as [[k|] t1]; cbn [fst snd] in *;
    (apply (taken_weaken (in_time t t1)); [intros x [A B]; split; [cbn; lia|exact B]|]); cbn [cexec].
  - exact T.
  - pose proof (read_left n (c_in s) (ce_end E)) as Rl. destruct (fl_read n (c_in s) (ce_end E)) as [r i]. cbn in *. subst i. exact T.
  - exact T.
  - pose proof (copy_left n (c_in s) (ce_end E)) as Rl. destruct (fl_copy n (c_in s) (ce_end E)) as [r i]. cbn in *. subst i. exact T.
  - apply taken_none.
  - destruct (past _ _); cbn; [apply taken_none|]. destruct (ce_write E (c_step s) b) as [n err]. cbn. apply taken_none.
  - apply taken_none.
  - apply taken_none.
  - apply taken_none.
  - apply taken_none.
  - apply taken_none.
  - apply taken_none.
  - apply taken_none.
  - apply taken_none.
  - apply taken_none.
Qed.
Lemma tcrun_took dl {A} (p : cprog A) : nodl p -> forall t s, length (t_arr t) = length (c_in s) ->
  let '(_, (t', s')) := tcrun C E delay dl p t s in taken (in_time t t') (c_in s) (c_in s') (t_arr t) (t_arr t').
Proof.
  induction p as [a| |R e k IH]; intros ND t s L; cbn [tcrun]; try apply taken_none.
  destruct ND as [ND1 ND2]. pose proof (tcexec_keeps C E delay dl e t s ND1) as K. pose proof (tcexec_took dl e t s ND1 L) as T.
  destruct (tcexec C E delay dl e t s) as [r [t1 s1]]. cbn [fst snd] in K. destruct K as (K1 & K2 & K3 & K4 & K5).
  specialize (IH r (ND2 r) t1 s1 (taken_len _ _ _ _ _ T L)). pose proof (tcrun_keeps C E delay dl (k r) (ND2 r) t1 s1) as Kr.
  destruct (tcrun C E delay dl (k r) t1 s1) as [x [t2 s2]]. cbn [fst snd] in Kr. destruct Kr as (_ & _ & N2 & _).
  apply (taken_then _ _ (c_in s1) _ _ (t_arr t1)).
  - apply (taken_weaken (in_time t t1)); [|exact T]. intros y [A1 A2]. split; [lia|exact A2].
  - apply (taken_weaken (in_time t1 t2)); [|exact IH]. intros y [A1 A2]. split; [exact A1|]. rewrite <- K1. exact A2.
Qed.
End client.

(** Read uses only octets that arrived before the timeout passed. *)
Lemma read_in_time C E delay rto wto reply ses n t s : 0 < rto -> ce_deadline E (c_step s) = true -> length (t_arr t) = length (c_in s) ->
  let '(_, (t', s')) := timed_read C E delay rto wto reply ses n t s in
  taken (fun x => x <= t_now t' /\ x < t_now t + rto) (c_in s) (c_in s') (t_arr t) (t_arr t').
Proof.
  intros P D L. unfold timed_read. rewrite read_split. unfold with_timeouts. cbn [co_rto].
  destruct (N.ltb_spec 0 rto) as [Lr|]; [|lia]. unfold cdo. cbn [cbind tcrun tcexec cexec fst snd]. rewrite D.
  set (t1 := t_pass delay (t_set_rd rto t)).
  assert (R1 : t_rd t1 = Some (t_now t + rto) /\ t_arr t1 = t_arr t) by (unfold t1, t_set_rd; rewrite (proj2 (N.ltb_lt 0 rto) Lr); auto).
  destruct R1 as [R1 A1]. pose proof (tcrun_took C E delay (t_set_rd rto) _ (nodl_read C ses n true) t1 (c_tick s)) as T.
  rewrite A1 in T. specialize (T L). destruct (tcrun C E delay (t_set_rd rto) (read_rest C ses n true) t1 (c_tick s)) as [r [t' s']].
  apply (taken_weaken (in_time t1 t')); [|exact T]. intros x [B1 B2]. split; [exact B1|apply B2, R1].
Qed.

Section server.
Variables (C : Crypto) (E : senv) (delay : nat -> N).
Lemma texec_took {R} (e : seff R) t s : length (t_arr t) = length (s_in s) ->
  let '(_, (t', s')) := texec C E delay e t s in taken (in_time t t') (s_in s) (s_in s') (t_arr t) (t_arr t').
Proof.
  intros L. destruct e; unfold texec.
  1,2: pose proof (wait_took n (s_in s) t L) as T; destruct (t_wait n (s_in s) t) as [[k|] t1]; cbn [fst snd] in *;
    (apply (taken_weaken (in_time t t1)); [intros x [A B]; split; [cbn; lia|exact B]|]); cbn [sexec].
  all: try (solve [cbn -[taken]; repeat match goal with |- context [match ?x with _ => _ end] => destruct x end; apply taken_none]).
  - exact T.
  - pose proof (read_left n (s_in s) (e_end E)) as Rl. destruct (fl_read n (s_in s) (e_end E)) as [r i]. cbn in *. subst i. exact T.
  - exact T.
  - pose proof (copy_left n (s_in s) (e_end E)) as Rl. destruct (fl_copy n (s_in s) (e_end E)) as [r i]. cbn in *. subst i. exact T.
  - destruct (past _ _); cbn; [apply taken_none|]. destruct (e_write E (s_step s) b) as [n err]. cbn. apply taken_none.
Qed.
Lemma trun_took {A} (p : sprog A) : forall t s, length (t_arr t) = length (s_in s) ->
  let '(_, (t', s')) := trun C E delay p t s in taken (in_time t t') (s_in s) (s_in s') (t_arr t) (t_arr t').
Proof.
  induction p as [a| |R e k IH]; intros t s L; cbn [trun]; try apply taken_none.
  pose proof (texec_keeps C E delay e t s) as K. pose proof (texec_took e t s L) as T.
  destruct (texec C E delay e t s) as [r [t1 s1]]. cbn [fst snd] in K. destruct K as (K1 & K2 & K3 & K4 & K5).
  specialize (IH r t1 s1 (taken_len _ _ _ _ _ T L)). pose proof (trun_keeps C E delay (k r) t1 s1) as Kr.
  destruct (trun C E delay (k r) t1 s1) as [x [t2 s2]]. cbn [fst snd] in Kr. destruct Kr as (_ & _ & N2 & _).
  apply (taken_then _ _ (s_in s1) _ _ (t_arr t1)).
  - apply (taken_weaken (in_time t t1)); [|exact T]. intros y [A1 A2]. split; [lia|exact A2].
  - apply (taken_weaken (in_time t1 t2)); [|exact IH]. intros y [A1 A2]. split; [exact A1|]. rewrite <- K1. exact A2.
Qed.
(** So does an iteration of the server. *)
Lemma request_in_time rto wto t s : 0 < rto -> length (t_arr t) = length (s_in s) ->
  let '(_, (t', s')) := tbody C E delay rto wto t s in
  taken (fun x => x <= t_now t' /\ x < t_now t + rto) (s_in s) (s_in s') (t_arr t) (t_arr t').
Proof.
  intros P L. unfold tbody. cbn [sexec]. destruct (e_quit E (s_step s)); [cbn; apply taken_none|].
  destruct (set_both rto wto t) as (S1 & S2 & S3 & S4 & S5). set (t0 := t_set_wd wto (t_set_rd rto t)) in *.
  destruct (N.ltb_spec 0 rto) as [_|]; [|lia]. pose proof (trun_took (one_request C) t0 (tick s)) as T. rewrite S5 in T.
  specialize (T L). destruct (trun C E delay (one_request C) t0 (tick s)) as [r [t' s']].
  apply (taken_weaken (in_time t0 t')); [|exact T]. intros x [B1 B2]. split; [exact B1|apply B2, S1].
Qed.
End server.
