(** Two processes that do not disturb one another: whatever the order of their
    steps, they come to the same end after the same number of steps. *)
From Coq Require Import List Arith Lia.
Import ListNotations.

Section Kahn.
Variables (S Lab : Type) (l r : S -> option S) (lab : S -> Lab).
Hypothesis diamond : forall x y z, l x = Some y -> r x = Some z ->
  (exists w, r y = Some w /\ l z = Some w) /\ lab y = lab x.

Inductive path : S -> nat -> list Lab -> S -> Prop :=
| path_nil x : path x 0 [] x
| path_l x y z n t : l x = Some y -> path y n t z -> path x (Datatypes.S n) t z
| path_r x y z n t : r x = Some y -> path y n t z -> path x (Datatypes.S n) (lab x :: t) z.

Lemma path_app x y z n m t u : path x n t y -> path y m u z -> path x (n + m) (t ++ u) z.
Proof.
  induction 1; cbn; intros H2; [exact H2| |].
  - eapply path_l; [eassumption|auto].
  - eapply path_r; [eassumption|auto].
Qed.

Definition ends (z : S) : Prop := l z = None /\ r z = None.

Lemma one_l x n t z : path x n t z -> ends z -> forall y, l x = Some y ->
  exists m, n = Datatypes.S m /\ path y m t z.
Proof.
  induction 1 as [x|x y z n t Hl Hp IH|x y z n t Hr Hp IH]; intros Hz y' Hy.
  - destruct Hz as [Hz _]. congruence.
  - exists n. split; [reflexivity|]. congruence.
  - destruct (diamond _ _ _ Hy Hr) as [(w & Hw1 & Hw2) Hlab].
    destruct (IH Hz w Hw2) as (m & -> & Hm). exists (Datatypes.S m). split; [reflexivity|].
    rewrite <- Hlab. eapply path_r; eassumption.
Qed.

Lemma one_r x n t z : path x n t z -> ends z -> forall y, r x = Some y ->
  exists m t', n = Datatypes.S m /\ t = lab x :: t' /\ path y m t' z.
Proof.
  induction 1 as [x|x y z n t Hl Hp IH|x y z n t Hr Hp IH]; intros Hz y' Hy.
  - destruct Hz as [_ Hz]. congruence.
  - destruct (diamond _ _ _ Hl Hy) as [(w & Hw1 & Hw2) Hlab].
    destruct (IH Hz w Hw1) as (m & t' & -> & -> & Hm). exists (Datatypes.S m), t'. split; [reflexivity|].
    rewrite Hlab. split; [reflexivity|]. eapply path_l; eassumption.
  - exists n, t. split; [reflexivity|]. split; [reflexivity|]. congruence.
Qed.

Theorem confluent x j u y : path x j u y -> forall n t z, path x n t z -> ends z ->
  exists m t', n = j + m /\ t = u ++ t' /\ path y m t' z.
Proof.
  induction 1 as [x|x y' y j u Hl Hp IH|x y' y j u Hr Hp IH]; intros n t z Hz Hn.
  - exists n, t. auto.
  - destruct (one_l _ _ _ _ Hz Hn _ Hl) as (m & -> & Hm). destruct (IH _ _ _ Hm Hn) as (m' & t' & -> & -> & Hm').
    exists m', t'. auto.
  - destruct (one_r _ _ _ _ Hz Hn _ Hr) as (m & t1 & -> & -> & Hm).
    destruct (IH _ _ _ Hm Hn) as (m' & t' & -> & -> & Hm'). exists m', t'. auto.
Qed.
End Kahn.
