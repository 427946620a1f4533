(** Other connections make no difference to the client's. *)
From Verif Require Import Bytes BytesProofs Parser ParserProofs Crypto Kdf Wire WireProofs WireSeq Replay SpecReplay
  Server ServerSeq SpecServer ServerProofs MultiConn SpecMulti MultiProofs Keys
  Client ClientSeq SpecClient ClientProofs SpecE2E E2EProofs System SpecSystem Kahn Duo DuoRun DuoTalk.

Definition any (k : bytes) : Prop := True.
Lemma any_own C h : own_key C any h. Proof. intros ? ? _ _. exact I. Qed.

Lemma join_of p s : join (mem_of s) (conn_of p s) = s.
Proof. destruct s; reflexivity. Qed.

(** Other connections keep off the entries in [K], and these are not collected. *)
Definition keeps_off1 (K : bytes -> bool) {A} (x : sys A) (v : move) : Prop :=
  match v with
  | MOther j => forall k, next_key (c_prog (t_conn (y_srv x) j)) = Some k -> K k = false
  | MCollect k => K k = false
  | _ => True
  end.
Fixpoint keeps_off (C : Crypto) (CE : cenv) (E : nat -> senv) (tcp : nat -> bool) (me : nat) (K : bytes -> bool) {A}
    (sched : list move) (x : sys A) : Prop :=
  match sched with
  | [] => True
  | v :: l => keeps_off1 K x v /\ match sys_move C CE E tcp me x v with
                                  | Some y => keeps_off C CE E tcp me K l y
                                  | None => True
                                  end
  end.
Lemma spares_keeps C CE E tcp me key {A} sched : forall x : sys A, spares C CE E tcp me key sched x ->
  keeps_off C CE E tcp me (fun k => bytes_eqb k key) sched x.
Proof.
  induction sched as [|v l IH]; intros x; [auto|]. cbn [spares keeps_off]. intros [H1 H2]. split.
  - destruct v as [| |j|j b|k]; cbn [spares1 keeps_off1] in *; auto.
    + intros k Hk. destruct (bytes_eqb_spec k key) as [->|]; [contradiction|reflexivity].
    + destruct (bytes_eqb_spec k key); [contradiction|reflexivity].
  - destruct (sys_move C CE E tcp me x v); auto.
Qed.
Lemma keeps_off_none C CE E tcp me {A} sched : forall x : sys A, keeps_off C CE E tcp me (fun _ => false) sched x.
Proof.
  induction sched as [|v l IH]; intros x; [exact I|]. cbn [keeps_off]. split.
  - destruct v; cbn; auto.
  - destruct (sys_move C CE E tcp me x v); auto.
Qed.

Section Sim.
Variables (C : Crypto) (CE : cenv) (E : nat -> senv) (tcp : nat -> bool) (me : nat) (K : bytes -> bool) (A : Type).
Hypothesis Htcp : tcp me = true.
Notation go_c := (go_c C CE A).
Notation go_s := (go_s C (E me) A).

Record simd (x : sys A) (y : duo A) (f : prel) (N : nat -> Prop) : Prop := {
  sd_cl : y_cl x = d_cl y;
  sd_cs : y_cs x = d_cs y;
  sd_rel : rel K f N (t_mem (y_srv x)) (mem_of (d_ss y));
  sd_me : crel any (e_host (E me)) f (t_conn (y_srv x) me) (conn_of (d_sp y) (d_ss y));
  sd_others : forall j, j <> me -> nrel any (e_host (E j)) N (t_conn (y_srv x) j) }.

Lemma crel_feed h f c c' b : crel any h f c c' -> crel any h f (conn_feed c b) (conn_feed c' b).
Proof. intros (A1 & A2 & A3 & A4 & A5). repeat split; auto. cbn. rewrite A1. reflexivity. Qed.

Lemma sim_client x y f N : simd x y f N ->
  match sys_move C CE E tcp me x MClient, go_c y with
  | Some x', Some y' => simd x' y' f N
  | None, None => True
  | _, _ => False
  end.
Proof.
  intros [S1 S2 S3 S4 S5]. unfold sys_move, Duo.go_c. rewrite <- S1, <- S2.
  destruct (y_cl x) as [a| |R e k]; try exact I. destruct (c_ready e (c_in (y_cs x))); [|exact I].
  destruct (cexec C CE e (y_cs x)) as [r s]. constructor; cbn.
  - reflexivity.
  - reflexivity.
  - exact S3.
  - rewrite Nat.eqb_refl. apply (crel_feed _ _ _ _ (c_out CE e (y_cs x))) in S4. exact S4.
  - intros j Hj. rewrite (eqb_ne _ _ Hj). apply S5, Hj.
Qed.

Lemma go_s_step y : match go_s y with
  | Some y' => mem_of (d_ss y') = fst (conn_step C (E me) true (mem_of (d_ss y)) (conn_of (d_sp y) (d_ss y))) /\
               conn_of (d_sp y') (d_ss y') = snd (conn_step C (E me) true (mem_of (d_ss y)) (conn_of (d_sp y) (d_ss y))) /\
               d_cl y' = d_cl y
  | None => True
  end.
Proof.
  unfold Duo.go_s, conn_step. destruct y as [cl cs sp ss]. cbn [d_cl d_cs d_sp d_ss]. cbn [conn_of c_prog].
  destruct sp as [[|]| |R e k]; try exact I.
  - cbn. destruct ss; auto.
  - destruct (s_ready e (s_in ss)); [|exact I].
    change {| c_prog := SDo e k; MultiConn.c_in := s_in ss; MultiConn.c_step := s_step ss; MultiConn.c_sent := s_sent ss; c_calls := s_calls ss |}
      with (conn_of (SDo e k) ss). rewrite join_of. destruct (sexec C (E me) e ss) as [r s]. cbn. auto.
Qed.

Lemma sim_serve x y f N : simd x y f N -> (forall k, uses y = Some k -> K k = true) ->
  match sys_move C CE E tcp me x MServe, go_s y with
  | Some x', Some y' => exists f', simd x' y' f' N
  | None, None => True
  | _, _ => False
  end.
Proof.
  intros [S1 S2 S3 S4 S5] HK. pose proof (go_s_step y) as GS.
  assert (HK' : forall k, next_key (c_prog (t_conn (y_srv x) me)) = Some k -> K k = true).
  { intros k Hk. apply HK. unfold uses. destruct S4 as (_ & _ & _ & _ & A5). cbn [conn_of c_prog] in A5.
    destruct A5; try discriminate Hk; try exact Hk. }
  destruct (g_step C (E me) true K any f N _ _ _ _ (any_own C _) HK' S3 S4) as (f' & Hs & R' & C').
  assert (Hsame : match c_prog (t_conn (y_srv x) me) with
    | SRet true => match d_sp y with SRet true => True | _ => False end
    | SRet false | SPanic => match d_sp y with SRet false | SPanic => True | _ => False end
    | SDo e k => match d_sp y with
        | SDo e' k' => s_ready e (MultiConn.c_in (t_conn (y_srv x) me)) = s_ready e' (s_in (d_ss y)) /\
                       s_out (E me) e (MultiConn.c_step (t_conn (y_srv x) me)) = s_out (E me) e' (s_step (d_ss y))
        | _ => False end
    end).
  { destruct S4 as (A1 & A2 & A3 & A4 & A5). cbn [conn_of c_prog MultiConn.c_in MultiConn.c_step] in *. rewrite A1, A2.
    destruct A5 as [? []| | | | | | | | | | |]; try exact I; split; reflexivity. }
  assert (Hsim : forall y', go_s y = Some y' -> forall z, d_cs y' = z ->
            simd {| y_cl := y_cl x; y_cs := z; y_srv := mstep C E tcp (y_srv x) (AConn me) |} y' f' N).
  { intros y' Ey z Ez. rewrite Ey in GS. destruct GS as (G1 & G2 & G3). constructor; cbn.
    - rewrite G3. exact S1.
    - symmetry. exact Ez.
    - rewrite Htcp, G1. exact R'.
    - rewrite Nat.eqb_refl, Htcp, G2. exact C'.
    - intros j Hj. rewrite (eqb_ne _ _ Hj). apply S5, Hj. }
  unfold sys_move. unfold Duo.go_s in *. destruct (c_prog (t_conn (y_srv x) me)) as [[|]| |R e k].
  - destruct (d_sp y) as [[|]| |]; try contradiction. rewrite Htcp. exists f'. apply Hsim; [reflexivity|]. cbn. symmetry; exact S2.
  - destruct (d_sp y) as [[|]| |]; try contradiction; exact I.
  - destruct (d_sp y) as [[|]| |]; try contradiction; exact I.
  - destruct (d_sp y) as [| |R2 e' k']; try contradiction. destruct Hsame as [H1 H2]. rewrite H1, H2.
    destruct (s_ready e' (s_in (d_ss y))); [|exact I].
    destruct (sexec C (E me) e' (d_ss y)) as [r s]. exists f'. apply Hsim; [reflexivity|]. cbn. rewrite S2. reflexivity.
Qed.

Lemma sim_rest x y f N v x' : simd x y f N -> keeps_off1 K x v ->
  match v with MClient | MServe => False | _ => True end -> sys_move C CE E tcp me x v = Some x' ->
  exists N', simd x' y f N'.
Proof.
  intros [S1 S2 S3 S4 S5] Hsp Hv. destruct v as [| |j|j b|k]; try contradiction; cbn [sys_move keeps_off1] in *.
  - destruct (Nat.eqb_spec j me) as [->|Hj]; [discriminate|]. intros H; injection H as <-.
    destruct (n_step C (E j) (tcp j) K any f N _ _ _ (any_own C _) Hsp S3 (S5 j Hj)) as (N' & Hs & R' & C').
    exists N'. constructor; cbn; auto.
    + rewrite (eqb_ne _ _ (fun e => Hj (eq_sym e))). exact S4.
    + intros i Hi. destruct (Nat.eqb_spec i j) as [->|Hij]; [exact C'|]. eapply nrel_mono; [exact Hs|]. apply S5, Hi.
  - destruct (Nat.eqb_spec j me) as [->|Hj]; [discriminate|]. intros H; injection H as <-.
    exists N. constructor; cbn; auto.
    + rewrite (eqb_ne _ _ (fun e => Hj (eq_sym e))). exact S4.
    + intros i Hi. destruct (Nat.eqb_spec i j) as [->|Hij]; apply S5; assumption.
  - intros H; injection H as <-. exists N. constructor; cbn; auto.
    destruct S3 as [Rf Ri Rl Rh Ro Rlo Rd Rot]. constructor; cbn; auto.
    + intros q Hq. destruct (bytes_eqb_spec q k) as [->|]; [|apply Ro, Hq].
      congruence.
    + intros q a Hq Ha. destruct (bytes_eqb q k); [discriminate|eauto].
Qed.

(** ** Any schedule *)
Notation path := (path (duo A) (option bytes) go_c go_s uses).
Definition good (l : option bytes) : Prop := forall k, l = Some k -> K k = true.

Lemma sim_sched sched : forall x y f N x' m t z, simd x y f N -> path y m t z -> ends _ go_c go_s z -> Forall good t ->
  keeps_off C CE E tcp me K sched x -> sys_run C CE E tcp me sched x = Some x' ->
  exists y' f' N' m' t', simd x' y' f' N' /\ path y' m' t' z /\ Forall good t' /\ m = (own_moves sched + m')%nat.
Proof.
  induction sched as [|v l IH]; intros x y f N x' m t z S P Hz G Hsp Hrun.
  { cbn in Hrun. injection Hrun as <-. exists y, f, N, m, t. auto. }
  cbn [sys_run keeps_off] in Hsp, Hrun. destruct Hsp as [Hsp1 Hsp2].
  destruct (sys_move C CE E tcp me x v) as [x1|] eqn:Ev; [|discriminate].
  assert (Hother : match v with MClient | MServe => False | _ => True end ->
    exists y' f' N' m' t', simd x' y' f' N' /\ path y' m' t' z /\ Forall good t' /\ m = (own_moves (v :: l) + m')%nat).
  { intros Hv. destruct (sim_rest x y f N v x1 S Hsp1 Hv Ev) as (N' & S').
    destruct (IH x1 y f N' x' m t z S' P Hz G Hsp2 Hrun) as (y' & f' & N2 & m' & t' & H1 & H2 & H3 & H4).
    exists y', f', N2, m', t'. split; [exact H1|]. split; [exact H2|]. split; [exact H3|].
    rewrite H4. destruct v; try contradiction; reflexivity. }
  destruct v as [| |j|j b|k]; try (apply Hother; exact I).
  - pose proof (sim_client x y f N S) as SC. rewrite Ev in SC. destruct (go_c y) as [y1|] eqn:Ey; [|contradiction].
    destruct (one_l _ _ _ _ _ (diamond C CE (E me) A) _ _ _ _ P Hz _ Ey) as (m1 & -> & P1).
    destruct (IH x1 y1 f N x' m1 t z SC P1 Hz G Hsp2 Hrun) as (y' & f' & N2 & m' & t' & H1 & H2 & H3 & H4).
    exists y', f', N2, m', t'. split; [exact H1|]. split; [exact H2|]. split; [exact H3|]. rewrite H4. reflexivity.
  - assert (exists y1, go_s y = Some y1) as [y1 Ey].
    { destruct (go_s y) as [y1|] eqn:Ey; [eauto|]. exfalso.
      (* the connection of the duo is at the same effect *)
      destruct S as [S1 S2 S3 (A1 & A2 & A3 & A4 & A5) S5]. cbn [conn_of c_prog MultiConn.c_in] in A1, A5.
      unfold sys_move in Ev. unfold Duo.go_s in Ey. rewrite A1 in Ev.
      destruct A5 as [? []| | | | | | | | | | |]; try discriminate; cbn [s_ready] in Ev, Ey;
        repeat match type of Ey with context [if ?b then _ else _] => destruct b end; try discriminate;
        match type of Ey with context [sexec ?c ?e ?f ?s] => destruct (sexec c e f s); discriminate end. }
    destruct (one_r _ _ _ _ _ (diamond C CE (E me) A) _ _ _ _ P Hz _ Ey) as (m1 & t1 & -> & -> & P1).
    inversion G as [|? ? G1 G2]; subst.
    assert (HK : forall k, uses y = Some k -> K k = true).
    { exact G1. }
    pose proof (sim_serve x y f N S HK) as SC. rewrite Ev, Ey in SC. destruct SC as (f1 & SC).
    destruct (IH x1 y1 f1 N x' m1 t1 z SC P1 Hz G2 Hsp2 Hrun) as (y' & f' & N2 & m' & t' & H1 & H2 & H3 & H4).
    exists y', f', N2, m', t'. split; [exact H1|]. split; [exact H2|]. split; [exact H3|]. rewrite H4. reflexivity.
Qed.

(** Ends correspond. *)
Lemma sim_rests x y f N z m t : simd x y f N -> path y m t z -> ends _ go_c go_s z -> Forall good t ->
  rests C CE E tcp me x <-> m = 0%nat.
Proof.
  intros S P Hz G. split.
  - intros [Rc Rs]. inversion P as [|? y1 ? m1 t1 Hl Hp|? y1 ? m1 t1 Hr Hp]; subst; [reflexivity| |].
    + pose proof (sim_client x y f N S) as SC. rewrite Rc, Hl in SC. contradiction.
    + inversion G as [|? ? G1 G2]; subst.
      assert (HK : forall k, uses y = Some k -> K k = true).
      { exact G1. }
      pose proof (sim_serve x y f N S HK) as SC. rewrite Rs, Hr in SC. contradiction.
  - intros ->. inversion P; subst. destruct Hz as [Z1 Z2]. split.
    + pose proof (sim_client x z f N S) as SC. rewrite Z1 in SC. destruct (sys_move C CE E tcp me x MClient); [contradiction|reflexivity].
    + unfold sys_move. destruct S as [S1 S2 S3 (A1 & A2 & A3 & A4 & A5) S5]. cbn [conn_of c_prog MultiConn.c_in] in A1, A5.
      unfold Duo.go_s in Z2. rewrite A1.
      destruct A5 as [? []| | | | | | | | | | |]; try discriminate; try reflexivity; cbn [s_ready] in *;
        repeat match type of Z2 with context [if ?b then _ else _] => destruct b end; try discriminate; try reflexivity;
        match type of Z2 with context [sexec ?c ?e ?f ?s] => destruct (sexec c e f s); discriminate end.
Qed.
End Sim.

(** ** Monotone facts about paths *)
Section Mono.
Variables (C : Crypto) (CE : cenv) (SE : senv) (A : Type).
Notation path := (path (duo A) (option bytes) (go_c C CE A) (go_s C SE A) uses).

Lemma sexec_calls {R} (e : seff R) s : exists l, s_calls (snd (sexec C SE e s)) = s_calls s ++ l.
Proof.
  destruct e; cbn [sexec]; try (exists []; cbn; rewrite app_nil_r; reflexivity).
  - destruct (fl_read _ _ _). exists []; cbn; rewrite app_nil_r; reflexivity.
  - destruct (fl_copy _ _ _). exists []; cbn; rewrite app_nil_r; reflexivity.
  - destruct (e_write _ _ _). exists []; cbn; rewrite app_nil_r; reflexivity.
  - destruct (e_store _ _); exists []; cbn; rewrite app_nil_r; reflexivity.
  - destruct (check_and_update _ _). exists []; cbn; rewrite app_nil_r; reflexivity.
  - eexists. reflexivity.
Qed.

Lemma path_calls y m t z : path y m t z -> exists l, s_calls (d_ss z) = s_calls (d_ss y) ++ l.
Proof.
  induction 1 as [x|x y z n t Hl Hp IH|x y z n t Hr Hp IH].
  - exists []. rewrite app_nil_r. reflexivity.
  - destruct IH as (l & IH). exists l. rewrite IH. f_equal. unfold go_c in Hl. destruct (d_cl x); try discriminate.
    destruct (c_ready _ _); [|discriminate]. destruct (cexec _ _ _ _). injection Hl as <-. reflexivity.
  - destruct IH as (l & IH). unfold go_s in Hr. destruct (d_sp x) as [[|]| |R e k]; try discriminate.
    + injection Hr as <-. exists l. exact IH.
    + destruct (s_ready _ _); [|discriminate]. destruct (sexec_calls e (d_ss x)) as (l1 & H1).
      destruct (sexec C SE e (d_ss x)) as [r s]. injection Hr as <-. cbn [d_ss snd] in *. exists (l1 ++ l).
      rewrite IH, H1, app_assoc. reflexivity.
Qed.

Lemma path_done y m t z : path y m t z -> (forall a, d_cl y = CRet a -> d_cl z = CRet a) /\ (d_cl y = CPanic -> d_cl z = CPanic).
Proof.
  induction 1 as [x|x y z n t Hl Hp IH|x y z n t Hr Hp IH]; [auto| |].
  - unfold go_c in Hl. split; [intros a Ha|intros Ha]; rewrite Ha in Hl; discriminate.
  - assert (E : d_cl y = d_cl x).
    { unfold go_s in Hr. destruct (d_sp x) as [[|]| |R e k]; try discriminate.
      - injection Hr as <-. reflexivity.
      - destruct (s_ready _ _); [|discriminate]. destruct (sexec C SE e (d_ss x)) as [r s]. injection Hr as <-. reflexivity. }
    rewrite E in IH. exact IH.
Qed.
End Mono.
