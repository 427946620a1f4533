(** Who is told what by the registry. *)
From Verif Require Import Bytes BytesProofs Registry SpecRegistry RegistryProofs.

(** ** What a request has done so far *)
Definition after_store (u : user) (t : option task) : Prop :=
  match t with
  | Some (PStored u') | Some (PTell u' _) | Some (PTell2 u' _ _) => u' = u
  | Some (Done _) => True
  | _ => False
  end.

Record post (s : rst) : Prop := {
  p_stored : forall i u, In (i, RStored u) (r_log s) -> after_store u (r_task s i);
  p_resp : forall i c, In (i, RResp c) (r_log s) -> r_task s i = Some (Done c);
  p_deleted : forall i n, In (i, RDeleted n) (r_log s) ->
    match r_task s i with Some (DGone u) | Some (DTell u _) => u_name u = n | Some (Done _) => True | _ => False end }.

(** The task that moves is not one of those. *)
Lemma post0 : post rst0.
Proof. constructor; cbn; contradiction. Qed.

Lemma after_store_on u f t : after_store u (option_map (on_rng f) t) <-> after_store u t.
Proof. destruct t as [[]|]; reflexivity. Qed.

Ltac moved H := let E := fresh "E" in
  match goal with |- context [Nat.eqb ?j ?i] => destruct (Nat.eqb_spec j i) as [E|E]; [subst|] end.

Lemma post_set s i t e : post s ->
  (forall u, after_store u (r_task s i) -> after_store u (Some t)) ->
  (forall c, r_task s i <> Some (Done c)) ->
  (forall n, match r_task s i with Some (DGone u) | Some (DTell u _) => u_name u = n | Some (Done _) => True | _ => False end ->
     match t with DGone u | DTell u _ => u_name u = n | Done _ => True | _ => False end) ->
  match e with
  | Some (RStored _) | Some (RDeleted _) => False
  | Some (RResp c) => t = Done c
  | _ => True
  end -> post (match e with Some e => r_add (r_set s i t) i e | None => r_set s i t end).
Proof.
  intros [P1 P2 P3] H1 H2 H3 He.
  assert (Hlog : forall j x, In (j, x) (r_log (match e with Some e => r_add (r_set s i t) i e | None => r_set s i t end)) ->
            In (j, x) (r_log s) \/ (j = i /\ e = Some x)).
  { intros j x. destruct e as [e|]; cbn; [|auto]. intros [E|E]; [injection E as <- <-; auto|auto]. }
  assert (Htask : forall j, r_task (match e with Some e => r_add (r_set s i t) i e | None => r_set s i t end) j =
            if Nat.eqb j i then Some t else r_task s j) by (destruct e; reflexivity).
  constructor.
  - intros j u Hj. rewrite Htask. apply Hlog in Hj. destruct Hj as [Hj|[-> ->]]; [|contradiction].
    apply P1 in Hj. destruct (Nat.eqb_spec j i) as [->|]; [apply H1, Hj|exact Hj].
  - intros j c Hj. rewrite Htask. apply Hlog in Hj. destruct Hj as [Hj|[-> ->]].
    + apply P2 in Hj. destruct (Nat.eqb_spec j i) as [->|]; [|exact Hj]. destruct (H2 _ Hj).
    + rewrite Nat.eqb_refl. congruence.
  - intros j n Hj. rewrite Htask. apply Hlog in Hj. destruct Hj as [Hj|[-> ->]]; [|contradiction].
    apply P3 in Hj. destruct (Nat.eqb_spec j i) as [->|]; [apply H3, Hj|exact Hj].
Qed.

Lemma post_step s s' : post s -> rstep s s' -> post s'.
Proof.
  intros P H. destruct H as [s i q H|s i u r v H Hv E|s i u r v H Hv E|s i u r H Hd|s i u H|s i u H|s i u r v H Hv E
    |s i u r v H Hv E|s i u v r H|s i u r H Hd|s i n H E|s i n u H E|s i u H|s i u H|s i u r v H Hv|s i u r H Hd|s i r acc v H Hv|s i r acc H Hd].
  - apply (post_set s i _ (Some (RBegin q)) P); rewrite ?H; cbn; auto; try contradiction; try discriminate.
  - apply (post_set s i _ (Some (RResp 409)) P); rewrite ?H; cbn; auto; try contradiction; try discriminate.
  - apply (post_set s i _ None P); rewrite ?H; cbn; auto; try contradiction; try discriminate.
  - apply (post_set s i _ None P); rewrite ?H; cbn; auto; try contradiction; try discriminate.
  - destruct P as [P1 P2 P3]. constructor; cbn -[st_put].
    + intros j u' [E|Hj].
      * injection E as <- <-. rewrite Nat.eqb_refl. reflexivity.
      * apply P1 in Hj. destruct (Nat.eqb_spec j i) as [->|]; [rewrite H in Hj; contradiction|]. apply after_store_on, Hj.
    + intros j c [E|Hj]; [discriminate E|]. apply P2 in Hj. destruct (Nat.eqb_spec j i) as [->|]; [congruence|].
      rewrite Hj. reflexivity.
    + intros j n [E|Hj]; [discriminate E|]. apply P3 in Hj. destruct (Nat.eqb_spec j i) as [->|]; [rewrite H in Hj; contradiction|].
      destruct (r_task s j) as [[]|]; cbn in *; auto.
  - apply (post_set s i _ None P); rewrite ?H; cbn; auto; try contradiction; try discriminate.
  - apply (post_set s i _ None P); rewrite ?H; cbn; auto; try contradiction; try discriminate.
  - apply (post_set s i _ (Some (RTold v true u)) P); rewrite ?H; cbn; auto; try contradiction; try discriminate.
  - apply (post_set s i _ (Some (RTold u true v)) P); rewrite ?H; cbn; auto; try contradiction; try discriminate.
  - apply (post_set s i _ (Some (RResp 201)) P); rewrite ?H; cbn; auto; try contradiction; try discriminate.
  - apply (post_set s i _ (Some (RResp 404)) P); rewrite ?H; cbn; auto; try contradiction; try discriminate.
  - apply (post_set s i _ None P); rewrite ?H; cbn; auto; try contradiction; try discriminate.
  - destruct P as [P1 P2 P3]. constructor; cbn -[st_del].
    + intros j u' [E|Hj]; [discriminate E|].
      apply P1 in Hj. destruct (Nat.eqb_spec j i) as [->|]; [rewrite H in Hj; contradiction|]. apply after_store_on, Hj.
    + intros j c [E|Hj]; [discriminate E|]. apply P2 in Hj. destruct (Nat.eqb_spec j i) as [->|]; [congruence|].
      rewrite Hj. reflexivity.
    + intros j n [E|Hj].
      * injection E as <- <-. rewrite Nat.eqb_refl. reflexivity.
      * apply P3 in Hj. destruct (Nat.eqb_spec j i) as [->|]; [rewrite H in Hj; contradiction|].
        destruct (r_task s j) as [[]|]; cbn in *; auto.
  - apply (post_set s i _ None P); rewrite ?H; cbn; auto; try contradiction; try discriminate.
  - apply (post_set s i _ (Some (RTold v false u)) P); rewrite ?H; cbn; auto; try contradiction; try discriminate.
  - apply (post_set s i _ (Some (RResp 204)) P); rewrite ?H; cbn; auto; try contradiction; try discriminate.
  - apply (post_set s i _ None P); rewrite ?H; cbn; auto; try contradiction; try discriminate.
  - apply (post_set s i _ (Some (RList acc)) P); rewrite ?H; cbn; auto; try contradiction; try discriminate.
Qed.

(** A user that registered and was not removed is on the register. *)
Lemma kept_on l : forall j v n, In (j, RStored v) l -> u_name v = n -> kept l n -> on_register l n = true.
Proof.
  induction l as [|[k e] l IH]; intros j v n Hin Hn Hk; [destruct Hin|].
  assert (Hk' : kept l n) by (intros m Hm; apply (Hk m); right; exact Hm).
  destruct Hin as [E|Hin].
  - injection E as -> ->. cbn. rewrite Hn, bytes_eqb_refl. reflexivity.
  - destruct e; cbn; try (eapply IH; eauto; fail).
    + rewrite (IH j v n Hin Hn Hk'). apply Bool.orb_true_r.
    + destruct (bytes_eqb_spec n0 n) as [->|]; [|eapply IH; eauto]. exfalso. apply (Hk k). left. reflexivity.
Qed.

Lemma kept_in s j v : base s -> In (j, RStored v) (r_log s) -> kept (r_log s) (u_name v) -> only (r_log s) v ->
  In v (r_store s).
Proof.
  intros B Hin Hk Ho. pose proof (kept_on _ j v _ Hin eq_refl Hk) as Hr. apply (b_reg _ B) in Hr.
  apply in_map_iff in Hr. destruct Hr as (w & Hw & Hs). destruct (b_store _ B w Hs) as [k Hk'].
  rewrite <- (Ho k w Hk' Hw). exact Hs.
Qed.

(** ** Introductions *)
Definition told (l : list (nat * rev)) (v : user) (u : user) : Prop := exists k, In (k, RTold v true u) l.
Definition both (l : list (nat * rev)) (u v : user) : Prop := told l v u /\ told l u v.

Lemma told_cons x l v u : told l v u -> told (x :: l) v u.
Proof. intros [k H]. exists k. right. exact H. Qed.
Lemma both_cons x l u v : both l u v -> both (x :: l) u v.
Proof. intros [A B]. split; apply told_cons; assumption. Qed.

Definition covers (s : rst) (i : nat) (u v : user) : Prop :=
  match r_task s i with
  | Some (PStored u') => u' = u /\ In v (r_store s)
  | Some (PTell u' r) => u' = u /\ In (u_name v) (r_must r) /\ (In (u_name v) (r_seen r) -> both (r_log s) u v)
  | Some (PTell2 u' w r) => u' = u /\ In (u_name v) (r_must r) /\
      (u_name w = u_name v -> told (r_log s) v u /\ w = v) /\
      (In (u_name v) (r_seen r) -> u_name w <> u_name v -> both (r_log s) u v)
  | Some (Done _) => both (r_log s) u v
  | _ => False
  end.

(** A step of another request, or one that changes no range. *)
Lemma covers_frame s s' i u v : covers s i u v ->
  r_task s' i = r_task s i -> (In v (r_store s) -> In v (r_store s')) ->
  (r_log s' = r_log s \/ exists x, r_log s' = x :: r_log s) -> covers s' i u v.
Proof.
  intros H Ht Hs Hl. unfold covers in *. rewrite Ht.
  assert (B1 : both (r_log s) u v -> both (r_log s') u v).
  { destruct Hl as [->|[x ->]]; [auto|apply both_cons]. }
  assert (B2 : told (r_log s) v u -> told (r_log s') v u).
  { destruct Hl as [->|[x ->]]; [auto|apply told_cons]. }
  destruct (r_task s i) as [[]|]; auto.
  - destruct H. auto.
  - destruct H as (A1 & A2 & A3). auto.
  - destruct H as (A1 & A2 & A3 & A4). split; [exact A1|]. split; [exact A2|]. split; [|auto].
    intros En. destruct (A3 En). auto.
Qed.

Lemma covers_step s s' i u v : base s -> rstep s s' -> u_name u <> u_name v ->
  kept (r_log s') (u_name v) -> only (r_log s') v -> covers s i u v -> covers s' i u v.
Proof.
  intros B H Huv Hk Ho Hc.
  assert (Hvis : forall t r w, r_task s i = Some t -> rng_of t = Some r -> visits r w -> u_name w = u_name v ->
            (r_log s' = r_log s \/ exists x, r_log s' = x :: r_log s) -> w = v).
  { intros t r w Ht Hr [Hw _] Hn Hl. destruct (b_may _ B i t r w Ht Hr Hw) as [k Hin].
    apply (Ho k); [|exact Hn]. destruct Hl as [->|[x ->]]; [exact Hin|right; exact Hin]. }
  pose proof (step_log _ _ H) as Hl.
  destruct H as [s k q H|s k u0 r w H Hv E|s k u0 r w H Hv E|s k u0 r H Hd|s k u0 H|s k u0 H|s k u0 r w H Hv E
    |s k u0 r w H Hv E|s k u0 w r H|s k u0 r H Hd|s k n H E|s k n u0 H E|s k u0 H|s k u0 H|s k u0 r w H Hv|s k u0 r H Hd|s k r acc w H Hv|s k r acc H Hd];
  (destruct (Nat.eq_dec i k) as [->|Hik];
   [unfold covers in Hc; rewrite H in Hc; try contradiction
   |try (apply (covers_frame _ _ _ _ _ Hc); [cbn; rewrite (proj2 (Nat.eqb_neq i k) Hik); reflexivity|auto|exact Hl])]).
  - (* another stores *)
    unfold covers in *. cbn -[st_put]. rewrite (proj2 (Nat.eqb_neq i k) Hik).
    destruct (r_task s i) as [[]|]; cbn -[st_put] in *; auto using both_cons.
    + destruct Hc as [-> Hin]. split; [reflexivity|]. apply in_put.
      destruct (bytes_eqb_spec (u_name v) (u_name u0)) as [En|En]; [|right; auto].
      left. symmetry. apply (Ho k); [left; reflexivity|auto].
    + destruct Hc as (A1 & A2 & A3). auto using both_cons.
    + destruct Hc as (A1 & A2 & A3 & A4). split; [exact A1|]. split; [auto|]. split; [|auto using both_cons].
      intros En. destruct (A3 En). auto using told_cons.
  - (* the range begins *)
    destruct Hc as [-> Hin]. unfold covers. cbn. rewrite Nat.eqb_refl. split; [reflexivity|].
    split; [apply in_map, Hin|contradiction].
  - (* itself *)
    destruct Hc as (-> & A2 & A3). unfold covers. cbn. rewrite Nat.eqb_refl. split; [reflexivity|].
    split; [exact A2|]. intros [En|Hn]; [congruence|]. apply A3, Hn.
  - (* the first notification *)
    destruct Hc as (-> & A2 & A3). unfold covers. cbn. rewrite Nat.eqb_refl. split; [reflexivity|].
    split; [exact A2|]. split.
    + intros En. assert (w = v) as -> by (eapply Hvis; eauto; reflexivity). split; [|reflexivity].
      exists k. left. reflexivity.
    + intros [En|Hn] Hne; [congruence|]. apply both_cons, A3, Hn.
  - (* the second *)
    destruct Hc as (-> & A2 & A3 & A4). unfold covers. cbn. rewrite Nat.eqb_refl. split; [reflexivity|].
    split; [exact A2|]. intros Hn. split.
    + destruct (bytes_eqb_spec (u_name w) (u_name v)) as [En|En].
      * destruct (A3 En) as [T ->]. apply told_cons, T.
      * apply told_cons. apply A4; assumption.
    + destruct (bytes_eqb_spec (u_name w) (u_name v)) as [En|En].
      * destruct (A3 En) as [T ->]. exists k. left. reflexivity.
      * apply told_cons. apply A4; assumption.
  - (* the end *)
    destruct Hc as (-> & A2 & A3). unfold covers. cbn. rewrite Nat.eqb_refl. apply both_cons, A3, Hd, A2.
  - (* another deletes *)
    unfold covers in *. cbn -[st_del]. rewrite (proj2 (Nat.eqb_neq i k) Hik).
    assert (Hne : u_name v <> u_name u0) by (intros En; apply (Hk k); left; rewrite En; reflexivity).
    assert (Hf : forall l, In (u_name v) l -> In (u_name v) (filter (fun x => negb (bytes_eqb x (u_name u0))) l)).
    { intros l Hin. apply filter_In. split; [exact Hin|]. destruct (bytes_eqb_spec (u_name v) (u_name u0)); [congruence|reflexivity]. }
    destruct (r_task s i) as [[]|]; cbn -[st_del] in *; auto using both_cons.
    + destruct Hc as [-> Hin]. split; [reflexivity|]. apply in_del. auto.
    + destruct Hc as (A1 & A2 & A3). auto using both_cons.
    + destruct Hc as (A1 & A2 & A3 & A4). split; [exact A1|]. split; [auto|]. split; [|auto using both_cons].
      intros En. destruct (A3 En). auto using told_cons.
Qed.

Lemma kept_tail x l n : kept (x :: l) n -> kept l n.
Proof. intros H i Hi. apply (H i). right. exact Hi. Qed.
Lemma only_tail x l u : only (x :: l) u -> only l u.
Proof. intros H i v Hi. apply (H i). right. exact Hi. Qed.

Definition meet (s : rst) : Prop := forall i j u v,
  In (i, RStored u) (r_log s) -> In (j, RStored v) (r_log s) -> u_name u <> u_name v ->
  kept (r_log s) (u_name u) -> kept (r_log s) (u_name v) -> only (r_log s) u -> only (r_log s) v ->
  covers s i u v \/ covers s j v u.

Lemma store_event s s' i u : rstep s s' -> In (i, RStored u) (r_log s') -> In (i, RStored u) (r_log s) \/
  (r_task s i = Some (PStore u) /\ r_task s' i = Some (PStored u) /\ r_store s' = st_put (r_store s) u /\ r_log s' = (i, RStored u) :: r_log s).
Proof.
  intros H. destruct H; cbn -[st_put]; auto; intros [E|Hin]; auto; try discriminate E.
  injection E as -> ->. right. rewrite Nat.eqb_refl. auto.
Qed.

Lemma meet_step s s' : base s -> post s -> meet s -> rstep s s' -> meet s'.
Proof.
  intros B P M H i j u v Hi Hj Huv Ku Kv Ou Ov.
  pose proof (base_step _ _ B H) as B'.
  assert (Kt : forall n, kept (r_log s') n -> kept (r_log s) n).
  { intros n. destruct (step_log _ _ H) as [->|[x ->]]; [auto|apply kept_tail]. }
  assert (Ot : forall w, only (r_log s') w -> only (r_log s) w).
  { intros w. destruct (step_log _ _ H) as [->|[x ->]]; [auto|apply only_tail]. }
  destruct (store_event _ _ _ _ H Hi) as [Hi0|(T1 & T2 & T3 & T4)].
  - destruct (store_event _ _ _ _ H Hj) as [Hj0|(T1 & T2 & T3 & T4)].
    + destruct (M i j u v Hi0 Hj0 Huv (Kt _ Ku) (Kt _ Kv) (Ot _ Ou) (Ot _ Ov)) as [Hc|Hc].
      * left. exact (covers_step _ _ _ _ _ B H Huv Kv Ov Hc).
      * right. exact (covers_step _ _ _ _ _ B H (fun E => Huv (eq_sym E)) Ku Ou Hc).
    + right. unfold covers. rewrite T2. split; [reflexivity|]. eapply kept_in; eauto.
  - left. unfold covers. rewrite T2. split; [reflexivity|]. eapply kept_in; eauto.
Qed.

Lemma all_steps s : rsteps rst0 s -> base s /\ post s /\ meet s.
Proof.
  intros H. remember rst0 as s0. induction H as [s|s s1 s2 H IH Hs]; subst.
  - split; [apply base0|]. split; [apply post0|]. intros i j u v [].
  - destruct (IH eq_refl) as (B & P & M). split; [eapply base_step; eauto|].
    split; [eapply post_step; eauto|eapply meet_step; eauto].
Qed.

Theorem introduced s : rsteps rst0 s -> forall i j u v,
  In (i, RStored u) (r_log s) -> In (j, RStored v) (r_log s) -> u_name u <> u_name v ->
  kept (r_log s) (u_name u) -> kept (r_log s) (u_name v) -> only (r_log s) u -> only (r_log s) v ->
  In (i, RResp 201) (r_log s) -> In (j, RResp 201) (r_log s) ->
  (exists k, In (k, RTold v true u) (r_log s)) /\ (exists k, In (k, RTold u true v) (r_log s)).
Proof.
  intros H i j u v Hi Hj Huv Ku Kv Ou Ov Ri Rj. destruct (all_steps s H) as (B & P & M).
  apply (p_resp _ P) in Ri. apply (p_resp _ P) in Rj.
  destruct (M i j u v Hi Hj Huv Ku Kv Ou Ov) as [Hc|Hc]; unfold covers in Hc.
  - rewrite Ri in Hc. exact Hc.
  - rewrite Rj in Hc. destruct Hc. split; assumption.
Qed.
