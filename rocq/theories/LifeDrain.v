(** Requests in progress when the server is closed. *)
From Verif Require Import Bytes BytesProofs ClientConc Life SpecLife LifeProofs LifeInv LifePort LifeThms
  Parser Crypto Wire Server ServerSeq SpecServer Udp SpecUdp UdpProofs.

Lemma lrun_cons s i c l : lrun s ((i, c) :: l) = match ldo s i c with Some s' => lrun s' l | None => None end.
Proof. reflexivity. Qed.

(** Close returns, and the socket is closed, while a datagram is being handled. *)
Lemma udp_not_drained s i j k : l_crashed s = false -> l_quit s = false -> l_v s = 0%Z ->
  l_pc s i = PRecv -> l_pc s j = TNone -> l_pc s k = KClose ->
  exists s', lrun s [(i, ChOk); (i, ChNew j); (k, ChOk); (k, ChOk); (i, ChOk)] = Some s' /\
    l_trace s' = (k, EReturned) :: (k, EQuit) :: (i, EDgram) :: l_trace s /\
    l_pc s' k = KReturned /\ l_pc s' i = PEnd /\ l_pc s' j = DHandle.
Proof.
  intros Cr Q V Pi Pj Pk.
  assert (Nij : Nat.eqb i j = false) by (apply Nat.eqb_neq; congruence). assert (Nji : Nat.eqb j i = false) by (apply Nat.eqb_neq; congruence).
  assert (Nik : Nat.eqb i k = false) by (apply Nat.eqb_neq; congruence). assert (Nki : Nat.eqb k i = false) by (apply Nat.eqb_neq; congruence).
  assert (Njk : Nat.eqb j k = false) by (apply Nat.eqb_neq; congruence). assert (Nkj : Nat.eqb k j = false) by (apply Nat.eqb_neq; congruence).
  rewrite lrun_cons. unfold ldo at 1. rewrite Cr, Pi.
  rewrite lrun_cons. unfold ldo at 1. cbn [l_crashed l_pc l_go l_log]. unfold upd. rewrite Cr, Nat.eqb_refl, Nji, Pj.
  rewrite lrun_cons. unfold ldo at 1. cbn [l_crashed l_pc l_quit l_go l_log]. unfold upd. rewrite Cr, ?Nki, ?Nkj, Pk, Q.
  rewrite lrun_cons. unfold ldo at 1. cbn [l_crashed l_pc l_v l_quit l_go l_log l_close_quit]. unfold upd. rewrite Cr, Nat.eqb_refl, V. cbn [Z.eqb].
  rewrite lrun_cons. unfold ldo at 1. cbn [l_crashed l_pc l_v l_quit l_go l_log l_close_quit]. unfold upd. rewrite Cr, ?Nik, ?Nij, ?Nat.eqb_refl. cbn [lrun].
  eexists. split; [reflexivity|]. cbn [l_trace l_pc l_go l_log l_close_quit]. unfold upd. rewrite !Nat.eqb_refl, ?Nki, ?Njk, ?Nji. auto.
Qed.
(** A datagram that was received before its socket was closed is handled as ever,
    and the answer is lost. *)
Lemma closed_loses C E hostof chunk send u net s : u_read u = true -> u_buffered u = true -> u_wbuf u = [] -> n_closed net = true ->
  exists r x s' l,
    urun C E hostof chunk send (one_request C) (u, net) s = (r, (x, s')) /\
    srun C (dgram_env E (hostof (u_addr u))) (one_request C) (set_in s (u_rbuf u)) = (r, set_in s' (u_rbuf (fst x))) /\
    s_sent s' = s_sent s ++ l /\
    n_out (snd (snd (udp_close send x))) = n_out net /\ (wire l <> [] -> fst (udp_close send x) = false).
Proof.
  intros R B W Cl. destruct (urun_flat C E hostof chunk send _ (one_request C) u net s R B) as (r & u' & s' & l & H1 & H2 & _ & _ & _ & H3 & H4 & _).
  exists r, (u', net), s', l. split; [exact H1|]. split; [exact H2|]. split; [exact H3|].
  rewrite W in H4. cbn [app] in H4. unfold udp_close. rewrite H4. destruct (wire l) as [|x w]; [split; [reflexivity|congruence]|].
  unfold net_send. rewrite Cl. cbn. auto.
Qed.

(** Of a TCP connection everything that was read is handled before it is closed. *)
Lemma reads_cons j i e l : reads_of j ((i, e) :: l) =
  ((if Nat.eqb i j && match e with ERead => true | _ => false end then 1 else 0) + reads_of j l)%nat.
Proof. unfold reads_of. cbn [filter fst snd]. destruct (_ && _); reflexivity. Qed.
Lemma handled_cons j i e l : handled_of j ((i, e) :: l) =
  ((if Nat.eqb i j && match e with EHandle => true | _ => false end then 1 else 0) + handled_of j l)%nat.
Proof. unfold handled_of. cbn [filter fst snd]. destruct (_ && _); reflexivity. Qed.

Definition over (p : lpc) : bool := match p with HDone | HLast _ | HRel _ | HEnd => true | _ => false end.
Definition drained (s : lst) : Prop := forall j,
  reads_of j (l_trace s) = ((match l_pc s j with HHandle => 1 | _ => 0 end) + handled_of j (l_trace s))%nat /\
  forall post pre, l_trace s = post ++ (j, EConnClosed) :: pre ->
    over (l_pc s j) = true /\ reads_of j pre = handled_of j pre /\ reads_of j post = 0%nat /\ handled_of j post = 0%nat.
Lemma drained_reach s : lreach s -> drained s.
Proof.
  induction 1 as [|s i c s' R IH D]; intros j; [split; [reflexivity|intros post pre T; destruct post; discriminate T]|].
  destruct (IH j) as [H1 H2]. destruct (step_next s i c s' D) as (oe & E & N). rewrite E.
  destruct (Nat.eq_dec j i) as [->|Ne].
  - destruct N as [(_ & N1 & N2)|(_ & N)].
    + rewrite N1.
      assert (C0 : reads_of i (ev_list i oe ++ l_trace s) = reads_of i (l_trace s) /\ handled_of i (ev_list i oe ++ l_trace s) = handled_of i (l_trace s)).
      { destruct N2 as [[_ ->]|[[-> _]|[-> _]]]; cbn [ev_list app]; rewrite ?reads_cons, ?handled_cons, ?Bool.andb_false_r; auto. }
      destruct C0 as [-> ->]. split; [exact H1|]. intros post pre T.
      destruct N2 as [[_ ->]|[[-> _]|[-> _]]]; cbn [ev_list app] in T; [|exact (H2 _ _ T)..].
      destruct post as [|x post]; [discriminate T|]. cbn [app] in T. injection T as <- T. rewrite reads_cons, handled_cons, !Bool.andb_false_r. exact (H2 _ _ T).
    + assert (G : forall post pre, l_trace s = post ++ (i, EConnClosed) :: pre -> over (l_pc s i) = true) by (intros post pre T; apply (H2 _ _ T)).
      split.
      * inversion N; subst; cbn [ev_list app]; rewrite ?reads_cons, ?handled_cons, ?Nat.eqb_refl; cbn [andb];
          match goal with X : _ = l_pc s i |- _ => rewrite <- X in H1 | _ => idtac end; repeat match goal with |- context [if ?b then _ else _] => destruct b end; cbn in *; lia.
      * intros post pre T. destruct oe as [e|]; cbn [ev_list app] in T.
        -- destruct post as [|x post]; cbn [app] in T.
           ++ injection T as -> <-. inversion N; subst. match goal with X : _ = l_pc s i |- _ => rewrite <- X in H1 end. cbn in H1.
              split; [reflexivity|]. split; [exact H1|]. split; reflexivity.
           ++ injection T as <- T. pose proof (H2 _ _ T) as (O & A & B & F). rewrite reads_cons, handled_cons, Nat.eqb_refl. cbn [andb].
              inversion N; subst; match goal with X : _ = l_pc s i |- _ => rewrite <- X in O end; try discriminate O.
        -- pose proof (H2 _ _ T) as (O & A). split; [|exact A]. inversion N; subst; match goal with X : _ = l_pc s i |- _ => rewrite <- X in O end; try discriminate O; reflexivity.
  - assert (C0 : reads_of j (ev_list i oe ++ l_trace s) = reads_of j (l_trace s) /\ handled_of j (ev_list i oe ++ l_trace s) = handled_of j (l_trace s)).
    { destruct oe as [e|]; [|auto]. cbn [ev_list app]. rewrite reads_cons, handled_cons. destruct (Nat.eqb_spec i j); [congruence|auto]. }
    destruct C0 as [-> ->].
    assert (O' : l_pc s' j = l_pc s j \/ l_pc s j = TNone /\ (l_pc s' j = HQuit \/ l_pc s' j = DHandle)).
    { destruct (step_other s i c s' j D Ne) as [Z|(Z & [(_ & Z2 & _)|(_ & Z2)])]; auto. }
    split.
    + destruct O' as [->|(Z & [Z2|Z2])]; [exact H1|rewrite Z in H1; rewrite Z2; exact H1..].
    + intros post pre T. assert (X : exists p, reads_of j post = reads_of j p /\ handled_of j post = handled_of j p /\ l_trace s = p ++ (j, EConnClosed) :: pre).
      { destruct oe as [e|]; cbn [ev_list app] in T; [|eauto]. destruct post as [|x post]; cbn [app] in T; [injection T as -> _ _; congruence|].
        injection T as <- T. exists post. rewrite reads_cons, handled_cons. destruct (Nat.eqb_spec i j); [congruence|auto]. }
      destruct X as (p & -> & -> & T'). destruct (H2 _ _ T') as (O & A). split; [|exact A].
      destruct O' as [->|(Z & _)]; [exact O|]. rewrite Z in O. discriminate O.
Qed.
Lemma conn_drained s post j pre : lreach s -> l_trace s = post ++ (j, EConnClosed) :: pre ->
  reads_of j pre = handled_of j pre /\ reads_of j post = 0%nat /\ handled_of j post = 0%nat.
Proof. intros R T. exact (proj2 (proj2 (drained_reach s R j) _ _ T)). Qed.
Lemma tcp_drained s post k pre : lreach s -> l_trace s = post ++ (k, EReturned) :: pre ->
  forall a j, In (a, ESpawn j) pre -> reads_of j pre = handled_of j pre /\ reads_of j post = 0%nat /\ handled_of j post = 0%nat.
Proof.
  intros R T a j Hin. pose proof (close_waits s post k pre R T a j Hin) as Hc.
  apply in_split in Hc. destruct Hc as (p1 & p2 & Hc).
  assert (T' : l_trace s = (post ++ (k, EReturned) :: p1) ++ (j, EConnClosed) :: p2) by (rewrite T, Hc, <- app_assoc; reflexivity).
  destruct (proj2 (drained_reach s R j) _ _ T') as (_ & A & B & F).
  assert (Ra : forall x y, reads_of j (x ++ y) = (reads_of j x + reads_of j y)%nat) by (intros; unfold reads_of; rewrite filter_app, app_length; reflexivity).
  assert (Ha : forall x y, handled_of j (x ++ y) = (handled_of j x + handled_of j y)%nat) by (intros; unfold handled_of; rewrite filter_app, app_length; reflexivity).
  rewrite Hc. rewrite !Ra, !Ha, ?reads_cons, ?handled_cons, ?Bool.andb_false_r in *. cbn [Nat.add] in *. lia.
Qed.

(** The UDP listener ends. *)
Definition pleft (p : lpc) : nat := match p with PRecv => 3 | PSpawn => 2 | PQuit => 1 | _ => 0 end.
Lemma plistener_own s a c s' : l_quit s = true -> packet_listener (l_pc s a) = true -> ldo s a c = Some s' ->
  l_quit s' = true /\ packet_listener (l_pc s' a) = true /\ l_pc s' a <> PRecv /\ (pleft (l_pc s' a) < pleft (l_pc s a))%nat.
Proof.
  intros Q L D. unfold ldo in D. destruct (l_crashed s); [discriminate|].
  destruct (l_pc s a) eqn:P; try discriminate L; destruct c; try discriminate D.
  - injection D as <-. rewrite Q. cbn. rewrite upd_same. repeat split; [exact Q|discriminate|cbn; lia].
  - injection D as <-. cbn. rewrite upd_same. repeat split; [exact Q|discriminate|cbn; lia].
  - injection D as <-. cbn. rewrite upd_same. repeat split; [exact Q|discriminate|cbn; lia].
  - destruct (l_pc s j) eqn:J; try discriminate D. injection D as <-. cbn. rewrite upd_same. repeat split; [exact Q|discriminate|cbn; lia].
Qed.
Lemma plistener_run a : forall l s s', l_quit s = true -> packet_listener (l_pc s a) = true -> lrun s l = Some s' ->
  packet_listener (l_pc s' a) = true /\ (own_steps a l + pleft (l_pc s' a) <= pleft (l_pc s a))%nat.
Proof.
  induction l as [|(i & c) l IH]; intros s s' Q L R.
  - injection R as <-. split; [exact L|]. cbn. lia.
  - cbn [lrun] in R. destruct (ldo s i c) as [s1|] eqn:D; [|discriminate].
    destruct (Nat.eq_dec i a) as [->|Ne].
    + destruct (plistener_own s a c s1 Q L D) as (Q1 & L1 & _ & B). destruct (IH s1 s' Q1 L1 R) as (L' & B'). split; [exact L'|].
      unfold own_steps in *. cbn [filter fst]. rewrite Nat.eqb_refl. cbn [length]. lia.
    + assert (P1 : l_pc s1 a = l_pc s a).
      { destruct (step_other s i c s1 a D ltac:(congruence)) as [X|[X _]]; [exact X|]. rewrite X in L. discriminate. }
      destruct (IH s1 s' (quit_kept s i c s1 D Q) ltac:(rewrite P1; exact L) R) as (L' & B'). split; [exact L'|].
      unfold own_steps in *. cbn [filter fst]. destruct (Nat.eqb_spec i a); [congruence|]. rewrite P1 in B'. exact B'.
Qed.
Lemma udp_port_released s a sched s' : lreach s -> l_quit s = true -> packet_listener (l_pc s a) = true -> lrun s sched = Some s' ->
  (own_steps a sched <= 3)%nat /\ ((0 < own_steps a sched)%nat -> l_pc s' a <> PRecv) /\
  (l_crashed s' = false -> l_pc s' a = PEnd \/ exists c s2, ldo s' a c = Some s2 /\ (l_pc s' a = PRecv -> c = ChErr)).
Proof.
  intros R Q L H. destruct (plistener_run a sched s s' Q L H) as (L' & B).
  assert (B3 : (pleft (l_pc s a) <= 3)%nat) by (destruct (l_pc s a); cbn; lia).
  split; [lia|]. split.
  - intros Z E. rewrite E in B. cbn in B. lia.
  - intros Cr. destruct (l_pc s' a) eqn:P; try discriminate L'; auto; right.
    + exists ChOk. unfold ldo. rewrite Cr, P. eexists. split; [reflexivity|discriminate].
    + exists ChErr. unfold ldo. rewrite Cr, P. eexists. split; [reflexivity|reflexivity].
    + destruct (finite_reach s' (lrun_reach _ _ _ R H)) as [n F]. exists (ChNew n). unfold ldo. rewrite Cr, P, (F n) by lia. eexists. split; [reflexivity|discriminate].
Qed.
