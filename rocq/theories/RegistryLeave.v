(** Departures and listings. *)
From Verif Require Import Bytes BytesProofs Registry SpecRegistry RegistryProofs RegistryIntro.

(** ** Everyone is told of a departure *)
Definition leaving (s : rst) (i : nat) (n : bytes) (v : user) : Prop :=
  match r_task s i with
  | Some (DGone u) => u_name u = n /\ In v (r_store s)
  | Some (DTell u r) => u_name u = n /\ In (u_name v) (r_must r) /\
      (In (u_name v) (r_seen r) -> In (i, RTold v false u) (r_log s))
  | Some (Done _) => exists u, u_name u = n /\ In (i, RTold v false u) (r_log s)
  | _ => False
  end.

Lemma leaving_frame s s' i n v : leaving s i n v ->
  r_task s' i = r_task s i -> (In v (r_store s) -> In v (r_store s')) ->
  (r_log s' = r_log s \/ exists x, r_log s' = x :: r_log s) -> leaving s' i n v.
Proof.
  intros H Ht Hs Hl. unfold leaving in *. rewrite Ht.
  assert (Hi : forall x, In x (r_log s) -> In x (r_log s')).
  { intros x. destruct Hl as [->|[y ->]]; [auto|right; assumption]. }
  destruct (r_task s i) as [[]|]; auto.
  - destruct H. auto.
  - destruct H as (A1 & A2 & A3). auto.
  - destruct H as (u & A1 & A2). eauto.
Qed.

Lemma leaving_step s s' i n v : base s -> rstep s s' ->
  kept (r_log s') (u_name v) -> only (r_log s') v -> leaving s i n v -> leaving s' i n v.
Proof.
  intros B H Hk Ho Hc.
  assert (Hvis : forall t r w, r_task s i = Some t -> rng_of t = Some r -> visits r w -> u_name w = u_name v ->
            (r_log s' = r_log s \/ exists x, r_log s' = x :: r_log s) -> w = v).
  { intros t r w Ht Hr [Hw _] Hn Hl. destruct (b_may _ B i t r w Ht Hr Hw) as [k Hin].
    apply (Ho k); [|exact Hn]. destruct Hl as [->|[x ->]]; [exact Hin|right; exact Hin]. }
  pose proof (step_log _ _ H) as Hl.
  destruct H as [s k q H|s k u0 r w H Hv E|s k u0 r w H Hv E|s k u0 r H Hd|s k u0 H|s k u0 H|s k u0 r w H Hv E
    |s k u0 r w H Hv E|s k u0 w r H|s k u0 r H Hd|s k m H E|s k m u0 H E|s k u0 H|s k u0 H|s k u0 r w H Hv|s k u0 r H Hd|s k r acc w H Hv|s k r acc H Hd];
  (destruct (Nat.eq_dec i k) as [->|Hik];
   [unfold leaving in Hc; rewrite H in Hc; try contradiction
   |try (apply (leaving_frame _ _ _ _ _ Hc); [cbn; rewrite (proj2 (Nat.eqb_neq i k) Hik); reflexivity|auto|exact Hl])]).
  - (* another stores *)
    unfold leaving in *. cbn -[st_put]. rewrite (proj2 (Nat.eqb_neq i k) Hik).
    destruct (r_task s i) as [[]|]; cbn -[st_put] in *; auto.
    + destruct Hc as [-> Hin]. split; [reflexivity|]. apply in_put.
      destruct (bytes_eqb_spec (u_name v) (u_name u0)) as [En|En]; [|right; auto].
      left. symmetry. apply (Ho k); [left; reflexivity|auto].
    + destruct Hc as (A1 & A2 & A3). auto.
    + destruct Hc as (u & A1 & A2). eauto.
  - (* another deletes *)
    unfold leaving in *. cbn -[st_del]. rewrite (proj2 (Nat.eqb_neq i k) Hik).
    assert (Hne : u_name v <> u_name u0) by (intros En; apply (Hk k); left; rewrite En; reflexivity).
    destruct (r_task s i) as [[]|]; cbn -[st_del] in *; auto.
    + destruct Hc as [-> Hin]. split; [reflexivity|]. apply in_del. auto.
    + destruct Hc as (A1 & A2 & A3). split; [exact A1|]. split; [|auto].
      apply filter_In. split; [exact A2|]. destruct (bytes_eqb_spec (u_name v) (u_name u0)); [congruence|reflexivity].
    + destruct Hc as (u & A1 & A2). eauto.
  - (* the range begins *)
    destruct Hc as [E Hin]. unfold leaving. cbn. rewrite Nat.eqb_refl. split; [exact E|].
    split; [apply in_map, Hin|contradiction].
  - (* a notification *)
    destruct Hc as (A1 & A2 & A3). unfold leaving. cbn. rewrite Nat.eqb_refl. split; [exact A1|].
    split; [exact A2|]. intros [En|Hn]; [left|right; auto].
    assert (w = v) as -> by (eapply Hvis; eauto; reflexivity). reflexivity.
  - (* the end *)
    destruct Hc as (A1 & A2 & A3). unfold leaving. cbn. rewrite Nat.eqb_refl.
    exists u0. split; [exact A1|]. right. apply A3, Hd, A2.
Qed.

Definition bye (s : rst) : Prop := forall i n l1 l0 j v,
  r_log s = l1 ++ (i, RDeleted n) :: l0 -> In (j, RStored v) l0 ->
  kept (r_log s) (u_name v) -> only (r_log s) v -> leaving s i n v.

Lemma delete_event s s' i n : rstep s s' -> forall l, r_log s' = (i, RDeleted n) :: l ->
  r_log s = l \/ r_log s = (i, RDeleted n) :: l.
Proof.
  intros H l. destruct H; cbn; auto; intros E; injection E; intros; subst; auto; discriminate.
Qed.

Lemma bye_step s s' : base s -> bye s -> rstep s s' -> bye s'.
Proof.
  intros B M H i n l1 l0 j v Hl Hj Hk Ho.
  assert (Kt : forall n, kept (r_log s') n -> kept (r_log s) n).
  { intros m. destruct (step_log _ _ H) as [->|[x ->]]; [auto|apply kept_tail]. }
  assert (Ot : forall w, only (r_log s') w -> only (r_log s) w).
  { intros w. destruct (step_log _ _ H) as [->|[x ->]]; [auto|apply only_tail]. }
  assert (Hold : forall k1, r_log s = k1 ++ (i, RDeleted n) :: l0 -> leaving s' i n v).
  { intros k1 E. apply (leaving_step s s' i n v B H Hk Ho). apply (M i n k1 l0 j v E Hj (Kt _ Hk) (Ot _ Ho)). }
  destruct l1 as [|x l1].
  - cbn in Hl. destruct (step_log _ _ H) as [E|[y E]].
    + apply (Hold []). rewrite <- E. exact Hl.
    + pose proof Hl as Hl'. rewrite E in Hl'. injection Hl' as -> El. subst l0. clear Hold.
      assert (Hin : In v (r_store s')).
      { apply (kept_in s' j v (base_step _ _ B H)); [|exact Hk|exact Ho]. rewrite E. right. exact Hj. }
      destruct H; cbn -[st_del] in *; try (exfalso; apply (f_equal (@length _)) in E; cbn in E; Lia.lia);
        injection E; intros; subst; try discriminate.
      unfold leaving. cbn -[st_del]. rewrite Nat.eqb_refl. auto.
  - destruct (step_log _ _ H) as [E|[y E]]; rewrite E in Hl.
    + apply (Hold (x :: l1)). exact Hl.
    + injection Hl as _ Hl. apply (Hold l1). exact Hl.
Qed.

Lemma bye_steps s : rsteps rst0 s -> bye s.
Proof.
  intros H. remember rst0 as s0. induction H as [s|s s1 s2 H IH Hs]; subst.
  - intros i n l1 l0 j v Hl. destruct l1; discriminate Hl.
  - eapply bye_step; eauto. apply base_steps, H.
Qed.

Theorem farewell s : rsteps rst0 s -> forall i n l1 l0 j v,
  r_log s = l1 ++ (i, RDeleted n) :: l0 -> In (j, RStored v) l0 ->
  kept (r_log s) (u_name v) -> only (r_log s) v -> In (i, RResp 204) (r_log s) ->
  exists u, u_name u = n /\ In (i, RTold v false u) (r_log s).
Proof.
  intros H i n l1 l0 j v Hl Hj Hk Ho Hr. destruct (all_steps s H) as (_ & P & _).
  apply (p_resp _ P) in Hr. pose proof (bye_steps s H i n l1 l0 j v Hl Hj Hk Ho) as Hb.
  unfold leaving in Hb. rewrite Hr in Hb. exact Hb.
Qed.

(** ** A listing shows who is there *)
Definition shows (s : rst) : Prop :=
  (forall i r acc, r_task s i = Some (GList r acc) ->
     map u_name acc = List.rev (r_seen r) /\ NoDup (r_seen r) /\
     (forall v, In v acc -> exists j, In (j, RStored v) (r_log s))) /\
  (forall i us, In (i, RList us) (r_log s) ->
     r_task s i = Some (Done 200) /\ NoDup (map u_name us) /\
     (forall v, In v us -> exists j, In (j, RStored v) (r_log s))).

(** A step that leaves listings alone. *)
Lemma shows_frame s s' : shows s ->
  (forall i, match r_task s' i with
     | Some (GList r acc) => exists r', r_task s i = Some (GList r' acc) /\ r_seen r = r_seen r'
     | _ => True end) ->
  (forall i, r_task s i = Some (Done 200) -> r_task s' i = Some (Done 200)) ->
  (forall i us, In (i, RList us) (r_log s') -> In (i, RList us) (r_log s)) ->
  (forall x, In x (r_log s) -> In x (r_log s')) -> shows s'.
Proof.
  intros [A B] H1 H2 H3 H4. split.
  - intros i r acc Hi. specialize (H1 i). rewrite Hi in H1. destruct H1 as (r' & Hr & E).
    destruct (A i r' acc Hr) as (C1 & C2 & C3). rewrite E. split; [exact C1|]. split; [exact C2|].
    intros v Hv. destruct (C3 v Hv) as [j Hj]. eauto.
  - intros i us Hi. destruct (B i us (H3 _ _ Hi)) as (C1 & C2 & C3). split; [auto|]. split; [exact C2|].
    intros v Hv. destruct (C3 v Hv) as [j Hj]. eauto.
Qed.

Ltac plain_frame s k H :=
  apply (shows_frame s);
  [ assumption
  | intros i; cbn -[st_put st_del]; destruct (Nat.eqb_spec i k) as [->|];
    [exact I|destruct (r_task s i) as [[]|]; cbn; eauto]
  | intros i Hi; cbn -[st_put st_del]; destruct (Nat.eqb_spec i k) as [->|]; [congruence|rewrite Hi; reflexivity]
  | first [intros i us Hi; exact Hi|intros i us [E'|Hi]; [discriminate E'|exact Hi]]
  | first [intros x Hx; exact Hx|intros x Hx; right; exact Hx] ].

Lemma nodup_snoc (l : list bytes) x : NoDup l -> ~ In x l -> NoDup (x :: l).
Proof. intros. constructor; assumption. Qed.

Lemma shows_step s s' : base s -> shows s -> rstep s s' -> shows s'.
Proof.
  intros B S H. destruct H as [s k q H|s k u0 r w H Hv E|s k u0 r w H Hv E|s k u0 r H Hd|s k u0 H|s k u0 H|s k u0 r w H Hv E
    |s k u0 r w H Hv E|s k u0 w r H|s k u0 r H Hd|s k m H E|s k m u0 H E|s k u0 H|s k u0 H|s k u0 r w H Hv|s k u0 r H Hd|s k r acc w H Hv|s k r acc H Hd];
  try (plain_frame s k H; fail).
  - destruct q; try (plain_frame s k H; fail).
    destruct S as [S1 S2]. split.
    + cbn. intros i r acc. destruct (Nat.eqb_spec i k) as [->|].
      * intros E. injection E as <- <-. cbn. repeat split; [constructor|contradiction].
      * intros Hi. destruct (S1 i r acc Hi) as (C1 & C2 & C3). split; [exact C1|]. split; [exact C2|].
        intros v Hv. destruct (C3 v Hv) as [j Hj]. eauto.
    + cbn. intros i us [E|Hi]; [discriminate E|]. destruct (S2 i us Hi) as (C1 & C2 & C3).
      destruct (Nat.eqb_spec i k) as [->|]; [congruence|]. split; [exact C1|]. split; [exact C2|].
      intros v Hv. destruct (C3 v Hv) as [j Hj]. eauto.
  - destruct S as [S1 S2]. split.
    + cbn. intros i r' acc'. destruct (Nat.eqb_spec i k) as [->|]; [|apply S1].
      intros E. injection E as <- <-. destruct (S1 k r acc H) as (C1 & C2 & C3). cbn.
      rewrite map_app, C1. split; [reflexivity|]. split; [constructor; [apply Hv|exact C2]|].
      intros v Hin. apply in_app_iff in Hin. destruct Hin as [Hin|[<-|[]]]; [apply C3, Hin|].
      exact (b_may _ B k _ r w H eq_refl (proj1 Hv)).
    + cbn. intros i us Hi. destruct (S2 i us Hi) as (C1 & C2 & C3).
      destruct (Nat.eqb_spec i k) as [->|]; [congruence|]. auto.
  - destruct (proj1 S k r acc H) as (D1 & D2 & D3). destruct S as [S1 S2]. split.
    + cbn. intros i r' acc'. destruct (Nat.eqb_spec i k) as [->|]; [discriminate|].
      intros Hi. destruct (S1 i r' acc' Hi) as (C1 & C2 & C3). split; [exact C1|]. split; [exact C2|].
      intros v Hv. destruct (C3 v Hv) as [j Hj]. eauto.
    + cbn. intros i us [E|Hi].
      * injection E as <- <-. rewrite Nat.eqb_refl. split; [reflexivity|]. split; [rewrite D1; apply NoDup_rev, D2|].
        intros v Hv. destruct (D3 v Hv) as [j Hj]. eauto.
      * destruct (S2 i us Hi) as (C1 & C2 & C3).
        destruct (Nat.eqb_spec i k) as [->|]; [congruence|]. split; [exact C1|]. split; [exact C2|].
        intros v Hv. destruct (C3 v Hv) as [j Hj]. eauto.
Qed.

(** Who was there before a listing began, and stays, is in it. *)
Definition listing (s : rst) (i : nat) (v : user) : Prop :=
  match r_task s i with
  | Some (GList r acc) => In (u_name v) (r_must r) /\ (In (u_name v) (r_seen r) -> In v acc)
  | Some (Done _) => forall us, In (i, RList us) (r_log s) -> In v us
  | _ => False
  end.

Lemma listing_frame s s' i v : listing s i v ->
  r_task s' i = r_task s i -> (forall us, In (i, RList us) (r_log s') -> In (i, RList us) (r_log s)) -> listing s' i v.
Proof.
  intros H Ht Hs. unfold listing in *. rewrite Ht. destruct (r_task s i) as [[]|]; auto.
Qed.

Lemma listing_step s s' i v : base s -> shows s -> rstep s s' ->
  kept (r_log s') (u_name v) -> only (r_log s') v -> listing s i v -> listing s' i v.
Proof.
  intros B S H Hk Ho Hc.
  assert (Hvis : forall t r w, r_task s i = Some t -> rng_of t = Some r -> visits r w -> u_name w = u_name v ->
            (r_log s' = r_log s \/ exists x, r_log s' = x :: r_log s) -> w = v).
  { intros t r w Ht Hr [Hw _] Hn Hl. destruct (b_may _ B i t r w Ht Hr Hw) as [k Hin].
    apply (Ho k); [|exact Hn]. destruct Hl as [->|[x ->]]; [exact Hin|right; exact Hin]. }
  pose proof (step_log _ _ H) as Hl.
  destruct H as [s k q H|s k u0 r w H Hv E|s k u0 r w H Hv E|s k u0 r H Hd|s k u0 H|s k u0 H|s k u0 r w H Hv E
    |s k u0 r w H Hv E|s k u0 w r H|s k u0 r H Hd|s k m H E|s k m u0 H E|s k u0 H|s k u0 H|s k u0 r w H Hv|s k u0 r H Hd|s k r acc w H Hv|s k r acc H Hd];
  (destruct (Nat.eq_dec i k) as [->|Hik];
   [unfold listing in Hc; rewrite H in Hc; try contradiction
   |try (apply (listing_frame _ _ _ _ Hc);
      [cbn; rewrite (proj2 (Nat.eqb_neq i k) Hik); reflexivity
      |first [intros us Hus; exact Hus|intros us [E'|Hi]; [congruence|exact Hi]]])]).
  - (* another stores *)
    unfold listing in *. cbn -[st_put]. rewrite (proj2 (Nat.eqb_neq i k) Hik).
    destruct (r_task s i) as [[]|]; cbn -[st_put] in *; auto.
    intros us [E|Hi]; [discriminate E|auto].
  - (* another deletes *)
    unfold listing in *. cbn -[st_del]. rewrite (proj2 (Nat.eqb_neq i k) Hik).
    assert (Hne : u_name v <> u_name u0) by (intros En; apply (Hk k); left; rewrite En; reflexivity).
    destruct (r_task s i) as [[]|]; cbn -[st_del] in *; auto.
    + destruct Hc as (A2 & A3). split; [|auto].
      apply filter_In. split; [exact A2|]. destruct (bytes_eqb_spec (u_name v) (u_name u0)); [congruence|reflexivity].
    + intros us [E|Hi]; [discriminate E|auto].
  - destruct Hc as (A2 & A3). unfold listing. cbn. rewrite Nat.eqb_refl. split; [exact A2|].
    intros [En|Hn]; apply in_app_iff; [right|left; auto].
    assert (w = v) as -> by (eapply Hvis; eauto; reflexivity). left. reflexivity.
  - destruct Hc as (A2 & A3). unfold listing. cbn. rewrite Nat.eqb_refl.
    intros us [E|Hi].
    + injection E as <-. apply A3, Hd, A2.
    + destruct (proj2 S k us Hi) as (C1 & _). congruence.
Qed.

Definition lists (s : rst) : Prop := forall i l1 l0 j v,
  r_log s = l1 ++ (i, RBegin QGet) :: l0 -> In (j, RStored v) l0 ->
  kept (r_log s) (u_name v) -> only (r_log s) v -> listing s i v.

Lemma lists_step s s' : base s -> shows s -> lists s -> rstep s s' -> lists s'.
Proof.
  intros B S M H i l1 l0 j v Hl Hj Hk Ho.
  assert (Kt : forall n, kept (r_log s') n -> kept (r_log s) n).
  { intros m. destruct (step_log _ _ H) as [->|[x ->]]; [auto|apply kept_tail]. }
  assert (Ot : forall w, only (r_log s') w -> only (r_log s) w).
  { intros w. destruct (step_log _ _ H) as [->|[x ->]]; [auto|apply only_tail]. }
  assert (Hold : forall k1, r_log s = k1 ++ (i, RBegin QGet) :: l0 -> listing s' i v).
  { intros k1 E. apply (listing_step s s' i v B S H Hk Ho). apply (M i k1 l0 j v E Hj (Kt _ Hk) (Ot _ Ho)). }
  destruct l1 as [|x l1].
  - cbn in Hl. destruct (step_log _ _ H) as [E|[y E]].
    + apply (Hold []). rewrite <- E. exact Hl.
    + pose proof Hl as Hl'. rewrite E in Hl'. injection Hl' as -> El. subst l0. clear Hold.
      assert (Hin : In v (r_store s)).
      { apply (kept_in s j v B Hj); auto. }
      destruct H; cbn -[st_del] in *; try (exfalso; apply (f_equal (@length _)) in E; cbn in E; Lia.lia);
        injection E; intros; subst; try discriminate.
      unfold listing. cbn. rewrite Nat.eqb_refl. split; [apply in_map, Hin|contradiction].
  - destruct (step_log _ _ H) as [E|[y E]]; rewrite E in Hl.
    + apply (Hold (x :: l1)). exact Hl.
    + injection Hl as _ Hl. apply (Hold l1). exact Hl.
Qed.

Lemma lists_steps s : rsteps rst0 s -> shows s /\ lists s.
Proof.
  intros H. remember rst0 as s0. induction H as [s|s s1 s2 H IH Hs]; subst.
  - split.
    + split; [discriminate|contradiction].
    + intros i l1 l0 j v Hl. destruct l1; discriminate Hl.
  - destruct (IH eq_refl) as [A B]. pose proof (base_steps _ H) as B0.
    split; [eapply shows_step; eauto|eapply lists_step; eauto].
Qed.

Theorem listed s : rsteps rst0 s -> forall i us, In (i, RList us) (r_log s) ->
  NoDup (map u_name us) /\
  (forall v, In v us -> exists j, In (j, RStored v) (r_log s)) /\
  (forall l1 l0 j v, r_log s = l1 ++ (i, RBegin QGet) :: l0 -> In (j, RStored v) l0 ->
     kept (r_log s) (u_name v) -> only (r_log s) v -> In v us).
Proof.
  intros H i us Hi. destruct (lists_steps s H) as [A B]. destruct (proj2 A i us Hi) as (C1 & C2 & C3).
  split; [exact C2|]. split; [exact C3|]. intros l1 l0 j v Hl Hj Hk Ho.
  pose proof (B i l1 l0 j v Hl Hj Hk Ho) as Hb. unfold listing in Hb. rewrite C1 in Hb. apply Hb, Hi.
Qed.

(** ** Nobody is told that someone joined who had left before *)
Definition clear_task (n : bytes) (t : option task) : Prop :=
  match t with
  | Some t =>
      (forall r, rng_of t = Some r -> forall v, In v (r_may r) -> u_name v <> n) /\
      match t with
      | PStored u | PTell u _ => u_name u <> n
      | PTell2 u w _ => u_name u <> n /\ u_name w <> n
      | GList _ acc => forall v, In v acc -> u_name v <> n
      | _ => True
      end
  | None => True
  end.

Record cleared (s0 : rst) (n : bytes) (s : rst) (l : list (nat * rev)) : Prop := {
  cl_log : r_log s = l ++ r_log s0;
  cl_store : ~ In n (map u_name (r_store s));
  cl_task : forall i, r_task s0 i = None -> clear_task n (r_task s i);
  cl_told : forall i v u, r_task s0 i = None -> In (i, RTold v true u) l -> u_name u <> n;
  cl_list : forall i us v, r_task s0 i = None -> In (i, RList us) l -> In v us -> u_name v <> n;
  cl_some : forall i, r_task s0 i <> None -> r_task s i <> None /\ forall q, ~ In (i, RBegin q) l }.

Lemma cleared_set s0 n s l k t : cleared s0 n s l -> r_task s k <> None ->
  (clear_task n (r_task s k) -> clear_task n (Some t)) -> cleared s0 n (r_set s k t) l.
Proof.
  intros [C1 C2 C3 C4 C4b C5] Hk Ht. constructor; auto; cbn.
  - intros i Hi. destruct (Nat.eqb_spec i k) as [->|]; [apply Ht, C3, Hi|apply C3, Hi].
  - intros i Hi. destruct (C5 i Hi) as [A B]. split; [|exact B]. destruct (Nat.eqb i k); [discriminate|exact A].
Qed.

Lemma cleared_add s0 n s l k e : cleared s0 n s l ->
  (forall v u, e = RTold v true u -> r_task s0 k = None -> u_name u <> n) ->
  (forall us v, e = RList us -> r_task s0 k = None -> In v us -> u_name v <> n) ->
  (forall q, e = RBegin q -> r_task s0 k = None) ->
  cleared s0 n (r_add s k e) ((k, e) :: l).
Proof.
  intros [C1 C2 C3 C4 C4b C5] He Hl Hq. constructor; auto; cbn.
  - rewrite C1. reflexivity.
  - intros i v u Hi [E|Hin]; [|eapply C4; eauto]. injection E as -> ->. eapply He; eauto.
  - intros i us v Hi [E|Hin]; [|eapply C4b; eauto]. injection E as -> ->. eapply Hl; eauto.
  - intros i Hi. destruct (C5 i Hi) as [A B]. split; [exact A|]. intros q [E|Hin]; [|apply (B q Hin)].
    injection E as -> ->. apply Hi, (Hq q eq_refl).
Qed.

Lemma cleared_step s0 n s s' l : cleared s0 n s l -> rstep s s' ->
  (forall l', r_log s' = l' ++ r_log s0 -> not_again n l') -> exists l', cleared s0 n s' l'.
Proof.
  intros C H Hf.
  assert (Hn : forall u, In u (r_store s) -> u_name u <> n).
  { intros u Hu E. apply (cl_store _ _ _ _ C). rewrite <- E. apply in_map, Hu. }
  destruct H as [s k q H|s k u0 r w H Hv E|s k u0 r w H Hv E|s k u0 r H Hd|s k u0 H|s k u0 H|s k u0 r w H Hv E
    |s k u0 r w H Hv E|s k u0 w r H|s k u0 r H Hd|s k m H E|s k m u0 H E|s k u0 H|s k u0 H|s k u0 r w H Hv|s k u0 r H Hd|s k r acc w H Hv|s k r acc H Hd].
  - exists ((k, RBegin q) :: l).
    assert (H0 : r_task s0 k = None).
    { destruct (r_task s0 k) eqn:E; [|reflexivity]. destruct (cl_some _ _ _ _ C k) as [A _]; congruence. }
    apply cleared_add; [|discriminate|discriminate|auto]. destruct C as [C1 C2 C3 C4 C4b C5]. constructor; auto; cbn.
    + intros i Hi. destruct (Nat.eqb_spec i k) as [->|]; [|apply C3, Hi].
      destruct q; cbn; (split; [|try exact I; contradiction]); try discriminate; intros r E v; injection E as <-; apply Hn.
    + intros i Hi. destruct (C5 i Hi) as [A B]. split; [|exact B]. destruct (Nat.eqb i k); [discriminate|exact A].
  - eexists. apply cleared_add; try discriminate. apply cleared_set; [exact C|congruence|]. cbn. split; [discriminate|exact I].
  - exists l. apply cleared_set; [exact C|congruence|]. rewrite H. cbn. intros [A _]. split; [|exact I].
    intros r' E'. injection E' as <-. apply (A r eq_refl).
  - exists l. apply cleared_set; [exact C|congruence|]. cbn. split; [discriminate|exact I].
  - assert (Hu : u_name u0 <> n).
    { apply (Hf ((k, RStored u0) :: l) ltac:(cbn; rewrite (cl_log _ _ _ _ C); reflexivity) k). left. reflexivity. }
    exists ((k, RStored u0) :: l). apply cleared_add; try discriminate.
    destruct C as [C1 C2 C3 C4 C4b C5]. constructor; auto; cbn -[st_put].
    + rewrite names_put. tauto.
    + intros i Hi. destruct (Nat.eqb_spec i k) as [->|].
      * cbn. split; [discriminate|exact Hu].
      * specialize (C3 i Hi). destruct (r_task s i) as [t|]; cbn; [|exact I]. destruct C3 as [D1 D2]. split.
        -- intros r. rewrite rng_of_on. destruct (rng_of t) as [r0|]; [|discriminate]. cbn.
           intros E. injection E as <-. cbn. intros v [<-|Hv]; [exact Hu|apply (D1 r0 eq_refl v Hv)].
        -- destruct t; exact D2.
    + intros i Hi. destruct (C5 i Hi) as [A B]. split; [|exact B]. destruct (Nat.eqb i k); [discriminate|].
      destruct (r_task s i); [discriminate|exact A].
  - exists l. apply cleared_set; [exact C|congruence|]. rewrite H. cbn. intros [_ A]. split; [|exact A].
    intros r E. injection E as <-. apply Hn.
  - exists l. apply cleared_set; [exact C|congruence|]. rewrite H. cbn. intros [A B]. split; [|exact B].
    intros r' E'. injection E' as <-. apply (A r eq_refl).
  - exists ((k, RTold w true u0) :: l). apply cleared_add; try discriminate.
    + apply cleared_set; [exact C|congruence|]. rewrite H. cbn. intros [A B]. split.
      * intros r' E'. injection E' as <-. apply (A r eq_refl).
      * split; [exact B|]. apply (A r eq_refl), Hv.
    + intros v u E' H0. injection E' as <- <-. pose proof (cl_task _ _ _ _ C k H0) as D. rewrite H in D. apply D.
  - exists ((k, RTold u0 true w) :: l). apply cleared_add; try discriminate.
    + apply cleared_set; [exact C|congruence|]. rewrite H. cbn. intros [A B]. split; [exact A|apply B].
    + intros v u E' H0. injection E' as <- <-. pose proof (cl_task _ _ _ _ C k H0) as D. rewrite H in D. apply D.
  - eexists. apply cleared_add; try discriminate. apply cleared_set; [exact C|congruence|]. cbn. split; [discriminate|exact I].
  - eexists. apply cleared_add; try discriminate. apply cleared_set; [exact C|congruence|]. cbn. split; [discriminate|exact I].
  - exists l. apply cleared_set; [exact C|congruence|]. cbn. split; [discriminate|exact I].
  - exists ((k, RDeleted (u_name u0)) :: l). apply cleared_add; try discriminate.
    destruct C as [C1 C2 C3 C4 C4b C5]. constructor; auto; cbn -[st_del].
    + rewrite names_del. tauto.
    + intros i Hi. destruct (Nat.eqb_spec i k) as [->|].
      * cbn. split; [discriminate|exact I].
      * specialize (C3 i Hi). destruct (r_task s i) as [t|]; cbn; [|exact I]. destruct C3 as [D1 D2]. split.
        -- intros r. rewrite rng_of_on. destruct (rng_of t) as [r0|]; [|discriminate]. cbn.
           intros E. injection E as <-. cbn. intros v Hv. apply (D1 r0 eq_refl v Hv).
        -- destruct t; exact D2.
    + intros i Hi. destruct (C5 i Hi) as [A B]. split; [|exact B]. destruct (Nat.eqb i k); [discriminate|].
      destruct (r_task s i); [discriminate|exact A].
  - exists l. apply cleared_set; [exact C|congruence|]. cbn. intros _. split; [|exact I].
    intros r E. injection E as <-. apply Hn.
  - exists ((k, RTold w false u0) :: l). apply cleared_add; try discriminate. apply cleared_set; [exact C|congruence|].
    rewrite H. cbn. intros [A B]. split; [|exact I]. intros r' E'. injection E' as <-. apply (A r eq_refl).
  - eexists. apply cleared_add; try discriminate. apply cleared_set; [exact C|congruence|]. cbn. split; [discriminate|exact I].
  - exists l. apply cleared_set; [exact C|congruence|].
    rewrite H. cbn. intros [A B]. split.
    + intros r' E'. injection E' as <-. apply (A r eq_refl).
    + intros v Hin. apply in_app_iff in Hin. destruct Hin as [Hin|[<-|[]]]; [apply B, Hin|]. apply (A r eq_refl), Hv.
  - eexists. apply cleared_add; try discriminate.
    + apply cleared_set; [exact C|congruence|]. cbn. split; [discriminate|exact I].
    + intros us v E H0. injection E as <-. pose proof (cl_task _ _ _ _ C k H0) as D. rewrite H in D. apply D.
Qed.

Lemma steps_log s s' : rsteps s s' -> exists l, r_log s' = l ++ r_log s.
Proof.
  induction 1 as [s|s s1 s2 H [l IH] Hs]; [exists []; reflexivity|].
  destruct (step_log _ _ Hs) as [->|[x ->]]; [eauto|]. exists (x :: l). rewrite IH. reflexivity.
Qed.

Lemma cleared_steps s0 n s : rsteps s0 s -> base s0 -> on_register (r_log s0) n = false ->
  (forall l, r_log s = l ++ r_log s0 -> not_again n l) -> exists l, cleared s0 n s l.
Proof.
  intros H B Hn. induction H as [s|s s1 s2 H IH Hs]; intros Hf.
  - exists []. constructor; auto.
    + intros Hin. apply (b_reg _ B) in Hin. congruence.
    + intros i ->. exact I.
  - destruct (IH B Hn) as [l C].
    + intros l El i u Hin. destruct (step_log _ _ Hs) as [E|[x E]].
      * apply (Hf l (eq_trans E El) i), Hin.
      * apply (Hf (x :: l) ltac:(rewrite E, El; reflexivity) i). right. exact Hin.
    + eapply cleared_step; eauto.
Qed.

Theorem never_back s0 s l n : rsteps rst0 s0 -> on_register (r_log s0) n = false ->
  rsteps s0 s -> r_log s = l ++ r_log s0 -> not_again n l ->
  forall i q v u, In (i, RBegin q) l -> In (i, RTold v true u) l -> u_name u <> n.
Proof.
  intros H0 Hn H Hl Hf i q v u Hq Ht.
  destruct (cleared_steps s0 n s H (base_steps _ H0) Hn) as [l' C].
  - intros l' E. rewrite Hl in E. apply app_inv_tail in E. subst l'. exact Hf.
  - assert (l' = l) as ->.
    { pose proof (cl_log _ _ _ _ C) as E. rewrite Hl in E. apply app_inv_tail in E. auto. }
    destruct (r_task s0 i) eqn:E.
    + destruct (cl_some _ _ _ _ C i) as [_ A]; [congruence|]. destruct (A q Hq).
    + eapply (cl_told _ _ _ _ C); eauto.
Qed.

Theorem not_listed s0 s l n : rsteps rst0 s0 -> on_register (r_log s0) n = false ->
  rsteps s0 s -> r_log s = l ++ r_log s0 -> not_again n l ->
  forall i q us v, In (i, RBegin q) l -> In (i, RList us) l -> In v us -> u_name v <> n.
Proof.
  intros H0 Hn H Hl Hf i q us v Hq Ht Hv.
  destruct (cleared_steps s0 n s H (base_steps _ H0) Hn) as [l' C].
  - intros l' E. rewrite Hl in E. apply app_inv_tail in E. subst l'. exact Hf.
  - assert (l' = l) as ->.
    { pose proof (cl_log _ _ _ _ C) as E. rewrite Hl in E. apply app_inv_tail in E. auto. }
    destruct (r_task s0 i) eqn:E.
    + destruct (cl_some _ _ _ _ C i) as [_ A]; [congruence|]. destruct (A q Hq).
    + eapply (cl_list _ _ _ _ C); eauto.
Qed.
