From Verif Require Import Bytes BytesProofs Registry SpecRegistry.

(** ** The log and the register *)
Definition rng_of (t : task) : option rng :=
  match t with
  | PCheck _ r | PTell _ r | PTell2 _ _ r | DTell _ r | GList r _ => Some r
  | _ => None
  end.

Lemma rng_of_on f t : rng_of (on_rng f t) = option_map f (rng_of t).
Proof. destruct t; reflexivity. Qed.

Lemma in_del s n u : In u (st_del s n) <-> In u s /\ u_name u <> n.
Proof.
  unfold st_del. rewrite filter_In. destruct (bytes_eqb_spec (u_name u) n); cbn; split; intros [A B]; split; auto; congruence.
Qed.

Lemma in_put s u v : In v (st_put s u) <-> v = u \/ (In v s /\ u_name v <> u_name u).
Proof. unfold st_put. cbn [In]. rewrite in_del. split; intros [A|B]; auto. Qed.

Lemma names_put s u n : In n (map u_name (st_put s u)) <-> u_name u = n \/ In n (map u_name s).
Proof.
  rewrite !in_map_iff. split.
  - intros (v & <- & Hv). apply in_put in Hv. destruct Hv as [->|[Hv _]]; [auto|right; eauto].
  - intros [<-|(v & <- & Hv)].
    + exists u. split; [reflexivity|]. apply in_put. auto.
    + destruct (bytes_eqb_spec (u_name v) (u_name u)) as [E|E].
      * exists u. split; [auto|]. apply in_put. auto.
      * exists v. split; [reflexivity|]. apply in_put. auto.
Qed.

Lemma names_del s m n : In n (map u_name (st_del s m)) <-> m <> n /\ In n (map u_name s).
Proof.
  rewrite !in_map_iff. split.
  - intros (v & <- & Hv). apply in_del in Hv. destruct Hv. split; [auto|eauto].
  - intros [Hm (v & <- & Hv)]. exists v. split; [reflexivity|]. apply in_del. auto.
Qed.

Lemma get_in s n u : st_get s n = Some u -> In u s /\ u_name u = n.
Proof.
  unfold st_get. intros H. apply find_some in H. destruct H as [H1 H2]. split; [exact H1|].
  destruct (bytes_eqb_spec (u_name u) n); [assumption|discriminate].
Qed.

Record base (s : rst) : Prop := {
  b_reg : forall n, on_register (r_log s) n = true <-> In n (map u_name (r_store s));
  b_store : forall v, In v (r_store s) -> exists j, In (j, RStored v) (r_log s);
  b_may : forall i t r v, r_task s i = Some t -> rng_of t = Some r -> In v (r_may r) ->
    exists j, In (j, RStored v) (r_log s) }.

(** Most steps change one request and add at most one event that is not about the
    register. *)
Definition dull (e : rev) : bool := match e with RStored _ | RDeleted _ => false | _ => true end.

Lemma reg_dull i e l n : dull e = true -> on_register ((i, e) :: l) n = on_register l n.
Proof. destruct e; intros H; try discriminate H; reflexivity. Qed.

Lemma base_set s i t : base s ->
  (forall r v, rng_of t = Some r -> In v (r_may r) -> exists j, In (j, RStored v) (r_log s)) ->
  base (r_set s i t).
Proof.
  intros [B1 B2 B3] Ht. constructor; cbn; auto.
  intros j t' r v. destruct (Nat.eqb j i); [|apply B3]. intros E Hr Hv. injection E as <-. eauto.
Qed.

Lemma base_add s i e : base s -> dull e = true -> base (r_add s i e).
Proof.
  intros [B1 B2 B3] Hd. constructor; cbn [r_add r_log r_store r_task].
  - intros n. rewrite reg_dull by exact Hd. apply B1.
  - intros v Hv. destruct (B2 v Hv) as [j Hj]. exists j. right. exact Hj.
  - intros j t r v H1 H2 H3. destruct (B3 j t r v H1 H2 H3) as [k Hk]. exists k. right. exact Hk.
Qed.

Lemma base_step s s' : base s -> rstep s s' -> base s'.
Proof.
  intros B H. pose proof B as [B1 B2 B3]. destruct H.
  - apply base_add; [|reflexivity]. apply base_set; [exact B|]. intros r v Hr Hv.
    destruct q; cbn in Hr; try discriminate Hr; injection Hr as <-; apply B2, Hv.
  - apply base_add; [|reflexivity]. apply base_set; [exact B|discriminate].
  - apply base_set; [exact B|]. intros r' v' Hr Hv. injection Hr as <-. exact (B3 _ _ r v' H eq_refl Hv).
  - apply base_set; [exact B|discriminate].
  - (* Store *)
    constructor; cbn -[st_put st_del].
    + intros n. rewrite Bool.orb_true_iff, B1. rewrite names_put.
      split; (intros [A|A]; [left|right; exact A]).
      * destruct (bytes_eqb_spec (u_name u) n); [assumption|discriminate].
      * rewrite A. apply bytes_eqb_refl.
    + intros v Hv. apply in_put in Hv. destruct Hv as [->|[Hv _]]; [eauto|].
      destruct (B2 v Hv) as [j Hj]. eauto.
    + intros j t r v. destruct (Nat.eqb j i); [intros E; injection E as <-; discriminate|].
      destruct (r_task s j) as [t0|] eqn:Et; [|discriminate]. cbn. intros E. injection E as <-.
      rewrite rng_of_on. destruct (rng_of t0) as [r0|] eqn:Er; [|discriminate]. cbn.
      intros E. injection E as <-. cbn. intros [->|Hv]; [eauto|].
      destruct (B3 j t0 r0 v Et Er Hv) as [k Hk]. eauto.
  - apply base_set; [exact B|]. intros r v Hr Hv. injection Hr as <-. apply B2, Hv.
  - apply base_set; [exact B|]. intros r' v' Hr Hv. injection Hr as <-. exact (B3 _ _ r v' H eq_refl Hv).
  - apply base_add; [|reflexivity]. apply base_set; [exact B|]. intros r' v' Hr Hv. injection Hr as <-.
    exact (B3 _ _ r v' H eq_refl Hv).
  - apply base_add; [|reflexivity]. apply base_set; [exact B|]. intros r' v' Hr Hv. injection Hr as <-.
    exact (B3 _ _ r v' H eq_refl Hv).
  - apply base_add; [|reflexivity]. apply base_set; [exact B|discriminate].
  - apply base_add; [|reflexivity]. apply base_set; [exact B|discriminate].
  - apply base_set; [exact B|discriminate].
  - (* Delete *)
    constructor; cbn -[st_put st_del].
    + intros n. rewrite names_del. destruct (bytes_eqb_spec (u_name u) n) as [E|E].
      * split; [discriminate|]. intros [A _]. congruence.
      * rewrite B1. tauto.
    + intros v Hv. apply in_del in Hv. destruct Hv as [Hv _]. destruct (B2 v Hv) as [j Hj]. eauto.
    + intros j t r v. destruct (Nat.eqb j i); [intros E; injection E as <-; discriminate|].
      destruct (r_task s j) as [t0|] eqn:Et; [|discriminate]. cbn. intros E. injection E as <-.
      rewrite rng_of_on. destruct (rng_of t0) as [r0|] eqn:Er; [|discriminate]. cbn.
      intros E. injection E as <-. cbn. intros Hv.
      destruct (B3 j t0 r0 v Et Er Hv) as [k Hk]. eauto.
  - apply base_set; [exact B|]. intros r v Hr Hv. injection Hr as <-. apply B2, Hv.
  - apply base_add; [|reflexivity]. apply base_set; [exact B|]. intros r' v' Hr Hv. injection Hr as <-.
    exact (B3 _ _ r v' H eq_refl Hv).
  - apply base_add; [|reflexivity]. apply base_set; [exact B|discriminate].
  - apply base_set; [exact B|]. intros r' v' Hr Hv. injection Hr as <-. exact (B3 _ _ r v' H eq_refl Hv).
  - apply base_add; [|reflexivity]. apply base_set; [exact B|discriminate].
Qed.

Lemma base0 : base rst0.
Proof. constructor; cbn; try contradiction; try discriminate. intros n. split; [discriminate|contradiction]. Qed.

Lemma base_steps s : rsteps rst0 s -> base s.
Proof.
  remember rst0 as s0. induction 1; subst; [apply base0|]. eapply base_step; eauto.
Qed.

(** Every part of a log was once the whole log. *)
Lemma step_log s s' : rstep s s' -> r_log s' = r_log s \/ exists x, r_log s' = x :: r_log s.
Proof. intros H. destruct H; cbn; eauto. Qed.

Lemma log_prefix s : rsteps rst0 s -> forall a b, r_log s = a ++ b -> exists s', rsteps rst0 s' /\ r_log s' = b.
Proof.
  remember rst0 as s0 eqn:E0. induction 1 as [s|s s1 s2 H IH Hs]; subst.
  - intros a b Hl. cbn in Hl. symmetry in Hl. apply app_eq_nil in Hl. destruct Hl as [_ ->].
    exists rst0. split; [constructor|reflexivity].
  - intros a b Hl. destruct a as [|x a].
    + exists s2. split; [econstructor; eauto|exact Hl].
    + destruct (step_log _ _ Hs) as [E|[y E]]; rewrite E in Hl.
      * apply (IH eq_refl (x :: a) b Hl).
      * injection Hl as _ Hl. apply (IH eq_refl a b Hl).
Qed.

(** ** A registered name is refused *)
Definition refuses (s : rst) : Prop := forall i u l1 l0,
  r_log s = l1 ++ (i, RBegin (QPost u)) :: l0 -> on_register l0 (u_name u) = true ->
  (forall j, ~ In (j, RDeleted (u_name u)) l1) ->
  (forall v, ~ In (i, RStored v) l1) /\
  match r_task s i with
  | Some (PCheck u' r) => u' = u /\ In (u_name u) (r_must r) /\ ~ In (u_name u) (r_seen r)
  | Some (Done _) => True
  | _ => False
  end.

(** The same decomposition in the log before the last event. *)
Lemma cons_split {A} (x : A) l l1 y l0 : x :: l = l1 ++ y :: l0 ->
  (l1 = [] /\ x = y /\ l = l0) \/ (exists l1', l1 = x :: l1' /\ l = l1' ++ y :: l0).
Proof.
  destruct l1 as [|z l1]; intros H; injection H as H1 H2; subst; [left; auto|right; eauto].
Qed.

Lemma refuses_set s i t : refuses s ->
  (forall u, match r_task s i with
     | Some (PCheck u' r) => u' = u /\ In (u_name u) (r_must r) /\ ~ In (u_name u) (r_seen r)
     | Some (Done _) => True | _ => False end ->
   match t with
     | PCheck u' r => u' = u /\ In (u_name u) (r_must r) /\ ~ In (u_name u) (r_seen r)
     | Done _ => True | _ => False end) -> refuses (r_set s i t).
Proof.
  intros R Ht j u l1 l0 Hl H0 Hd. destruct (R j u l1 l0 Hl H0 Hd) as [R1 R2]. split; [exact R1|]. cbn.
  destruct (Nat.eqb_spec j i) as [->|]; [|exact R2]. apply Ht. exact R2.
Qed.

Lemma refuses_add s i e : refuses s -> match e with RBegin _ | RStored _ => False | _ => True end -> refuses (r_add s i e).
Proof.
  intros R He j u l1 l0 Hl H0 Hd. cbn [r_add r_log] in Hl. apply cons_split in Hl.
  destruct Hl as [(-> & E & _)|(l1' & -> & Hl)].
  - injection E as -> ->. contradiction.
  - destruct (R j u l1' l0 Hl H0) as [R1 R2]. { intros k Hk. apply (Hd k). right. exact Hk. }
    split; [|exact R2]. intros v [E|Hv]; [|exact (R1 v Hv)]. injection E as -> ->. contradiction.
Qed.

Lemma refuses_step s s' : base s -> refuses s -> rstep s s' -> refuses s'.
Proof.
  intros B R H. destruct H as [s i q H|s i u r v H Hv E|s i u r v H Hv E|s i u r H Hd|s i u H|s i u H|s i u r v H Hv E
    |s i u r v H Hv E|s i u v r H|s i u r H Hd|s i n H E|s i n u H E|s i u H|s i u H|s i u r v H Hv|s i u r H Hd|s i r acc v H Hv|s i r acc H Hd].
  - (* begin *)
    intros j u l1 l0 Hl H0 Hd. cbn [r_add r_log r_set] in Hl. apply cons_split in Hl.
    destruct Hl as [(-> & E & <-)|(l1' & -> & Hl)].
    + injection E as -> ->. split; [intros v []|]. cbn. rewrite Nat.eqb_refl. cbn. repeat split; auto.
      apply (b_reg _ B). exact H0.
    + destruct (R j u l1' l0 Hl H0) as [R1 R2]. { intros k Hk. apply (Hd k). right. exact Hk. }
      split.
      * intros v [E|Hv]; [discriminate E|exact (R1 v Hv)].
      * cbn. destruct (Nat.eqb_spec j i) as [->|]; [|exact R2]. rewrite H in R2. contradiction.
  - apply refuses_add; [|exact I]. apply refuses_set; [exact R|]. auto.
  - apply refuses_set; [exact R|]. rewrite H. intros u' (-> & A1 & A2). repeat split; auto. cbn. intros [A|A]; auto.
  - apply refuses_set; [exact R|]. rewrite H. intros u' (-> & A1 & A2). apply A2, Hd, A1.
  - (* Store *)
    intros j u' l1 l0 Hl H0 Hd. cbn [r_add r_log r_set r_change] in Hl. apply cons_split in Hl.
    destruct Hl as [(-> & E & _)|(l1' & -> & Hl)]; [discriminate E|].
    destruct (R j u' l1' l0 Hl H0) as [R1 R2]. { intros k Hk. apply (Hd k). right. exact Hk. }
    destruct (Nat.eqb_spec j i) as [->|Hj].
    + rewrite H in R2. contradiction.
    + split; [intros v [E|Hv]; [congruence|exact (R1 v Hv)]|]. cbn. rewrite (proj2 (Nat.eqb_neq j i) Hj).
      destruct (r_task s j) as [[]|]; cbn in *; auto.
  - apply refuses_set; [exact R|]. rewrite H. intros u' [].
  - apply refuses_set; [exact R|]. rewrite H. intros u' [].
  - apply refuses_add; [|exact I]. apply refuses_set; [exact R|]. rewrite H. intros u' [].
  - apply refuses_add; [|exact I]. apply refuses_set; [exact R|]. rewrite H. intros u' [].
  - apply refuses_add; [|exact I]. apply refuses_set; [exact R|]. rewrite H. intros u' [].
  - apply refuses_add; [|exact I]. apply refuses_set; [exact R|]. rewrite H. intros u' [].
  - apply refuses_set; [exact R|]. rewrite H. intros u' [].
  - (* Delete *)
    intros j u' l1 l0 Hl H0 Hd. cbn [r_add r_log r_set r_change] in Hl. apply cons_split in Hl.
    destruct Hl as [(-> & E & _)|(l1' & -> & Hl)]; [discriminate E|].
    destruct (R j u' l1' l0 Hl H0) as [R1 R2]. { intros k Hk. apply (Hd k). right. exact Hk. }
    destruct (Nat.eqb_spec j i) as [->|Hj].
    + rewrite H in R2. contradiction.
    + split; [intros v [E|Hv]; [congruence|exact (R1 v Hv)]|]. cbn. rewrite (proj2 (Nat.eqb_neq j i) Hj).
      assert (Hne : u_name u <> u_name u') by (intros E; apply (Hd i); left; rewrite E; reflexivity).
      destruct (r_task s j) as [[]|]; cbn in *; auto.
      destruct R2 as (-> & A1 & A2). repeat split; auto. apply filter_In. split; [exact A1|].
      destruct (bytes_eqb_spec (u_name u') (u_name u)); [congruence|reflexivity].
  - apply refuses_set; [exact R|]. rewrite H. intros u' [].
  - apply refuses_add; [|exact I]. apply refuses_set; [exact R|]. rewrite H. intros u' [].
  - apply refuses_add; [|exact I]. apply refuses_set; [exact R|]. rewrite H. intros u' [].
  - apply refuses_set; [exact R|]. rewrite H. intros u' [].
  - apply refuses_add; [|exact I]. apply refuses_set; [exact R|]. rewrite H. intros u' [].
Qed.

Lemma refuses_steps s : rsteps rst0 s -> refuses s.
Proof.
  intros H. assert (G : base s /\ refuses s); [|apply G].
  remember rst0 as s0. induction H as [s|s s1 s2 H IH Hs]; subst.
  - split; [apply base0|]. intros i u l1 l0 Hl. destruct l1; discriminate.
  - destruct (IH eq_refl) as [B R]. split; [eapply base_step; eauto|eapply refuses_step; eauto].
Qed.

Theorem taken_name s : rsteps rst0 s -> forall i u v l2 l1 l0,
  r_log s = l2 ++ (i, RStored v) :: l1 ++ (i, RBegin (QPost u)) :: l0 ->
  on_register l0 (u_name u) = true -> exists j, In (j, RDeleted (u_name u)) l1.
Proof.
  intros H i u v l2 l1 l0 Hl H0.
  destruct (log_prefix s H _ _ Hl) as (s' & H' & Hl').
  destruct (existsb (fun x => match snd x with RDeleted n => bytes_eqb n (u_name u) | _ => false end) l1) eqn:Ex.
  - apply existsb_exists in Ex. destruct Ex as ([j e] & Hin & He). cbn in He. destruct e; try discriminate He.
    destruct (bytes_eqb_spec n (u_name u)) as [->|]; [|discriminate He]. eauto.
  - exfalso. destruct (refuses_steps s' H' i u ((i, RStored v) :: l1) l0) as [R1 _]; [exact Hl'|exact H0| |].
    + intros j [E|Hj]; [discriminate E|].
      assert (Et : existsb (fun x : nat * rev => match snd x with RDeleted n => bytes_eqb n (u_name u) | _ => false end) l1 = true).
      { apply existsb_exists. exists (j, RDeleted (u_name u)). split; [exact Hj|]. cbn. apply bytes_eqb_refl. }
      congruence.
    + apply (R1 v). left. reflexivity.
Qed.
