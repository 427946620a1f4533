(** Nothing is said without grounds. *)
From Verif Require Import Bytes BytesProofs Registry SpecRegistry RegistryProofs.

Definition task_grounds (l : list (nat * rev)) (i : nat) (t : task) : Prop :=
  match t with
  | PCheck u _ | PStore u => In (i, RBegin (QPost u)) l
  | PStored u | PTell u _ => In (i, RBegin (QPost u)) l /\ In (i, RStored u) l
  | PTell2 u v _ => In (i, RBegin (QPost u)) l /\ In (i, RStored u) l /\ was_stored l v /\ u_name u <> u_name v
  | DLoad n => In (i, RBegin (QDelete n)) l
  | DDel u => In (i, RBegin (QDelete (u_name u))) l /\ was_stored l u
  | DGone u | DTell u _ => In (i, RDeleted (u_name u)) l /\ was_stored l u
  | GList _ _ => In (i, RBegin QGet) l
  | Done _ => True
  end.

Lemma stored_incl l l' u : incl l l' -> was_stored l u -> was_stored l' u.
Proof. intros H [j Hj]. exists j. apply H, Hj. Qed.

Lemma grounds_incl l l' i e : incl l l' -> grounds l i e -> grounds l' i e.
Proof.
  intros H. pose proof (fun u => stored_incl l l' u H) as S. destruct e as [q|u|n|v [|] u|us|c]; cbn; auto.
  - intros (A & B & D & [E|E]); repeat split; auto.
  - intros (A & B & D); auto.
  - intros [(A & u & B)|[(A & u & v & B & D & E)|[(A & n & B)|(A & n & B)]]].
    + left. eauto.
    + right; left. split; [exact A|]. exists u, v. auto.
    + right; right; left. eauto.
    + right; right; right. eauto.
Qed.

Lemma task_incl l l' i t : incl l l' -> task_grounds l i t -> task_grounds l' i t.
Proof.
  intros H. pose proof (fun u => stored_incl l l' u H) as S. destruct t; cbn; auto.
  - intros [A B]. auto.
  - intros [A B]. auto.
  - intros (A & B & D & E). auto.
  - intros [A B]. auto.
  - intros [A B]. auto.
  - intros [A B]. auto.
Qed.

Lemma task_on l i f t : task_grounds l i (on_rng f t) <-> task_grounds l i t.
Proof. destruct t; reflexivity. Qed.

Record truth (s : rst) : Prop := {
  t_task : forall i t, r_task s i = Some t -> task_grounds (r_log s) i t;
  t_log : forall i e, In (i, e) (r_log s) -> grounds (r_log s) i e }.

Lemma truth_set s i t : truth s -> task_grounds (r_log s) i t -> truth (r_set s i t).
Proof.
  intros [A B] H. constructor; cbn; [|exact B]. intros j t'. destruct (Nat.eqb_spec j i) as [->|]; [|apply A].
  intros E. injection E as <-. exact H.
Qed.

Lemma truth_add s i t e : truth s -> grounds (r_log s) i e -> task_grounds ((i, e) :: r_log s) i t ->
  truth (r_add (r_set s i t) i e).
Proof.
  intros [A B] He Ht. assert (Hi : incl (r_log s) ((i, e) :: r_log s)) by (intros x Hx; right; exact Hx).
  constructor; cbn.
  - intros j t'. destruct (Nat.eqb_spec j i) as [->|]; [intros E; injection E as <-; exact Ht|].
    intros Hj. eapply task_incl; [exact Hi|apply A, Hj].
  - intros j e' [E|Hj]; [injection E as <- <-; eapply grounds_incl; [exact Hi|exact He]|].
    eapply grounds_incl; [exact Hi|apply B, Hj].
Qed.

Lemma truth_change s i st f t e : truth s -> grounds (r_log s) i e -> task_grounds ((i, e) :: r_log s) i t ->
  truth (r_add (r_set (r_change s st f) i t) i e).
Proof.
  intros [A B] He Ht. apply truth_add; auto. constructor; cbn; [|exact B].
  intros j t'. destruct (r_task s j) as [t0|] eqn:E; [|discriminate]. cbn. intros X. injection X as <-.
  apply task_on, A, E.
Qed.

Lemma truth_step s s' : base s -> truth s -> rstep s s' -> truth s'.
Proof.
  intros B T H.
  assert (Hvis : forall i t r w, r_task s i = Some t -> rng_of t = Some r -> visits r w -> was_stored (r_log s) w).
  { intros i t r w Ht Hr [Hw _]. exact (b_may _ B i t r w Ht Hr Hw). }
  assert (G : forall i t, r_task s i = Some t -> task_grounds (r_log s) i t) by apply T.
  destruct H as [s k q H|s k u0 r w H Hv E|s k u0 r w H Hv E|s k u0 r H Hd|s k u0 H|s k u0 H|s k u0 r w H Hv E
    |s k u0 r w H Hv E|s k u0 w r H|s k u0 r H Hd|s k m H E|s k m u0 H E|s k u0 H|s k u0 H|s k u0 r w H Hv|s k u0 r H Hd|s k r acc w H Hv|s k r acc H Hd];
  try (pose proof (G _ _ H) as Hg; cbn in Hg).
  - apply truth_add; [exact T|exact I|]. destruct q; cbn; auto.
  - apply truth_add; [exact T| |exact I]. right; left. split; [reflexivity|]. exists u0, w.
    split; [exact Hg|]. split; [eapply Hvis; eauto; reflexivity|exact E].
  - apply truth_set; [exact T|exact Hg].
  - apply truth_set; [exact T|exact Hg].
  - apply truth_change; [exact T|exact Hg|]. cbn. auto.
  - apply truth_set; [exact T|exact Hg].
  - apply truth_set; [exact T|exact Hg].
  - pose proof (Hvis _ _ _ _ H eq_refl Hv) as Hs. destruct Hg as [G1 G2].
    apply truth_add; [exact T| |].
    + cbn. split; [exists k; exact G2|]. split; [exact Hs|]. split; [auto|left; exact G2].
    + cbn. split; [auto|]. split; [auto|]. split; [destruct Hs as [j Hj]; exists j; right; exact Hj|auto].
  - destruct Hg as (G1 & G2 & G3 & G4). apply truth_add; [exact T| |].
    + cbn. split; [exact G3|]. split; [exists k; exact G2|]. split; [auto|right; exact G2].
    + cbn. auto.
  - destruct Hg as [G1 G2]. apply truth_add; [exact T| |exact I]. left. eauto.
  - apply truth_add; [exact T| |exact I]. right; right; left. eauto.
  - apply truth_set; [exact T|]. cbn. destruct (get_in _ _ _ E) as [E1 E2]. rewrite E2. split; [exact Hg|].
    destruct (b_store _ B u0 E1) as [j Hj]. exists j. exact Hj.
  - destruct Hg as [G1 G2]. apply truth_change; [exact T|exact G1|]. cbn. split; [auto|].
    destruct G2 as [j Hj]. exists j. right. exact Hj.
  - apply truth_set; [exact T|exact Hg].
  - destruct Hg as [G1 G2]. pose proof (Hvis _ _ _ _ H eq_refl Hv) as Hs. apply truth_add; [exact T| |].
    + cbn. auto.
    + cbn. split; [auto|]. destruct G2 as [j Hj]. exists j. right. exact Hj.
  - destruct Hg as [G1 G2]. apply truth_add; [exact T| |exact I]. right; right; right. eauto.
  - apply truth_set; [exact T|exact Hg].
  - apply truth_add; [exact T|exact Hg|exact I].
Qed.

Theorem truthful s : rsteps rst0 s -> forall i e, In (i, e) (r_log s) -> grounds (r_log s) i e.
Proof.
  intros H. assert (T : truth s); [|apply T].
  remember rst0 as s0. induction H as [s|s s1 s2 H IH Hs]; subst.
  - constructor; cbn; [discriminate|contradiction].
  - eapply truth_step; [|apply IH; reflexivity|exact Hs]. apply base_steps, H.
Qed.
