From Verif Require Import Bytes BytesProofs Parser Crypto Wire Replay Server ServerSeq Keys Client ClientSeq Timed SpecTimed.

Lemma t_wait_keeps n inp t : t_rd (snd (t_wait n inp t)) = t_rd t /\ t_wd (snd (t_wait n inp t)) = t_wd t /\
  t_n (snd (t_wait n inp t)) = t_n t /\ t_now t <= t_now (snd (t_wait n inp t)).
Proof.
  unfold t_wait. destruct (n =? 0); [cbn; repeat split; lia|]. destruct (t_rd t) as [d|] eqn:Rd; cbn.
  - destruct (_ <? d); cbn; repeat split; auto; lia.
  - repeat split; auto. lia.
Qed.
Lemma t_wait_late n inp t k : fst (t_wait n inp t) = Some k -> past (t_rd t) (t_now (snd (t_wait n inp t))) = true.
Proof.
  unfold t_wait. destruct (n =? 0); [discriminate|]. destruct (t_rd t) as [d|] eqn:Rd; [|discriminate].
  destruct (_ <? d); [discriminate|]. intros _. cbn. apply N.leb_le. lia.
Qed.
Lemma t_wait_bound n inp t d : t_rd t = Some d -> t_now (snd (t_wait n inp t)) <= N.max (t_now t) d.
Proof.
  intros Rd. unfold t_wait. destruct (n =? 0); [cbn; lia|]. rewrite Rd.
  destruct (N.ltb_spec (N.max (t_now t) (due n inp t)) d); cbn; lia.
Qed.

Lemma past_mono d a b : a <= b -> past d b = false -> past d a = false.
Proof. intros L. destruct d as [d|]; [|reflexivity]. unfold past. rewrite !N.leb_gt. lia. Qed.

Section server.
Variables (C : Crypto) (E : senv) (delay : nat -> N).
Notation texec := (texec C E delay). Notation trun := (trun C E delay).

Ltac by_effect e :=
  destruct e; unfold Timed.texec;
  [match goal with |- context [t_wait ?n ?i ?t] => generalize (t_wait_keeps n i t) (t_wait_late n i t) (t_wait_bound n i t); destruct (t_wait n i t) as [[k|] t1] end
  |match goal with |- context [t_wait ?n ?i ?t] => generalize (t_wait_keeps n i t) (t_wait_late n i t) (t_wait_bound n i t); destruct (t_wait n i t) as [[k|] t1] end
  |..].

Lemma texec_keeps {R} (e : seff R) t s : let t' := fst (snd (texec e t s)) in
  t_rd t' = t_rd t /\ t_wd t' = t_wd t /\ t_n t' = S (t_n t) /\ t_now t <= t_now t' /\
  (forall d, t_rd t = Some d -> t_now t' <= N.max (t_now t) d + delay (t_n t)).
Proof.
  assert (G : forall t1, t_rd t1 = t_rd t /\ t_wd t1 = t_wd t /\ t_n t1 = t_n t /\ t_now t <= t_now t1 ->
    (forall d, t_rd t = Some d -> t_now t1 <= N.max (t_now t) d) ->
    t_rd (t_pass delay t1) = t_rd t /\ t_wd (t_pass delay t1) = t_wd t /\ t_n (t_pass delay t1) = S (t_n t) /\ t_now t <= t_now (t_pass delay t1) /\
    (forall d, t_rd t = Some d -> t_now (t_pass delay t1) <= N.max (t_now t) d + delay (t_n t))).
  { intros t1 (A & B & D & F) H. cbn. rewrite A, B, D. repeat split; auto; [lia|]. intros d X. specialize (H d X). lia. }
  by_effect e.
  all: try (cbn; intros A _ B; apply G; [exact A|exact B]; fail).
  all: cbn [fst snd]; repeat match goal with |- context [if ?b then _ else _] => destruct b end; cbn [fst snd]; apply G; intros; repeat split; lia.
Qed.

Lemma texec_same {R} (e : seff R) t s : let t' := fst (snd (texec e t s)) in
  past (t_rd t) (t_now t') = false -> past (t_wd t) (t_now t') = false ->
  sexec C E e s = (fst (texec e t s), snd (snd (texec e t s))).
Proof.
  by_effect e.
  all: try (cbn [fst snd]; intros _ B _ X _; exfalso; rewrite (past_mono _ (t_now t1) _ (N.le_add_r _ _) X) in B; discriminate (B k eq_refl)).
  all: try (cbn [fst snd]; intros; apply surjective_pairing; fail).
  - cbn [fst snd]. intros X Y. destruct (past (t_wd t) (t_now t)) eqn:P; cbn [fst snd] in *; [|apply surjective_pairing].
    rewrite (past_mono _ (t_now t) _ (N.le_add_r _ _) Y) in P. discriminate P.
Qed.

Lemma trun_keeps {A} (p : sprog A) : forall t s, let t' := fst (snd (trun p t s)) in
  t_rd t' = t_rd t /\ t_wd t' = t_wd t /\ t_now t <= t_now t' /\
  exists k, t_n t' = (t_n t + k)%nat /\
    forall d, t_rd t = Some d -> t_now t' <= N.max (t_now t) d + spent delay (t_n t) k.
Proof.
  induction p as [a| |R e k IH]; intros t s; cbn [Timed.trun].
  - cbn. repeat split; try lia. exists 0%nat. split; [lia|]. cbn. lia.
  - cbn. repeat split; try lia. exists 0%nat. split; [lia|]. cbn. lia.
  - pose proof (texec_keeps e t s) as K. destruct (texec e t s) as [r [t1 s1]]. cbn [fst snd] in K. destruct K as (K1 & K2 & K3 & K4 & K5).
    specialize (IH r t1 s1). cbn zeta in *. destruct IH as (H1 & H2 & H3 & n & H4 & H5). rewrite K1 in *. rewrite K2 in *.
    repeat split; auto; [lia|]. exists (S n). split; [lia|]. intros d X. specialize (K5 d X). specialize (H5 d X).
    cbn [spent]. rewrite K3 in H5. lia.
Qed.

Lemma trun_same {A} (p : sprog A) : forall t s, let t' := fst (snd (trun p t s)) in
  past (t_rd t) (t_now t') = false -> past (t_wd t) (t_now t') = false ->
  srun C E p s = (fst (trun p t s), snd (snd (trun p t s))).
Proof.
  induction p as [a| |R e k IH]; intros t s; cbn [Timed.trun]; try reflexivity. cbn zeta. intros X Y.
  pose proof (texec_keeps e t s) as K. pose proof (texec_same e t s) as Sm.
  destruct (texec e t s) as [r [t1 s1]] eqn:Ex. cbn [fst snd] in *. destruct K as (K1 & K2 & K3 & K4 & _).
  pose proof (trun_keeps (k r) t1 s1) as (H1 & H2 & H3 & _). cbn [srun].
  rewrite (Sm (past_mono _ _ _ H3 X) (past_mono _ _ _ H3 Y)). apply IH; rewrite ?K1, ?K2; assumption.
Qed.

Lemma set_both rto wto t :
  t_rd (t_set_wd wto (t_set_rd rto t)) = (if 0 <? rto then Some (t_now t + rto) else t_rd t) /\
  t_wd (t_set_wd wto (t_set_rd rto t)) = (if 0 <? wto then Some (t_now t + wto) else t_wd t) /\
  t_now (t_set_wd wto (t_set_rd rto t)) = t_now t /\ t_n (t_set_wd wto (t_set_rd rto t)) = t_n t /\
  t_arr (t_set_wd wto (t_set_rd rto t)) = t_arr t.
Proof. unfold t_set_wd, t_set_rd. destruct (0 <? rto), (0 <? wto); cbn; auto. Qed.

Definition dl_ok (rto wto : N) (t : tio) : Prop := (rto = 0 -> t_rd t = None) /\ (wto = 0 -> t_wd t = None).
Lemma within_past to now d t' : within to now t' -> (to = 0 -> d = None) -> past (if 0 <? to then Some (now + to) else d) t' = false.
Proof.
  intros [->|L] H; [cbn; rewrite H; reflexivity|]. destruct (N.ltb_spec 0 to); [cbn; apply N.leb_gt; lia|]. rewrite H by lia. reflexivity.
Qed.
Lemma tbody_same rto wto t s : dl_ok rto wto t -> let t' := fst (snd (tbody C E delay rto wto t s)) in
  within rto (t_now t) (t_now t') -> within wto (t_now t) (t_now t') ->
  srun C E (conn_body C) s = (fst (tbody C E delay rto wto t s), snd (snd (tbody C E delay rto wto t s))) /\ dl_ok rto wto t'.
Proof.
  intros [D1 D2]. cbn zeta. unfold tbody, conn_body, sdo. cbn [sbind srun]. destruct (sexec C E SQuit s) as [q s1]. destruct q; [intros _ _; split; [reflexivity|split; assumption]|].
  destruct (set_both rto wto t) as (S1 & S2 & S3 & S4 & _).
  set (t0 := t_set_wd wto (t_set_rd rto t)) in *. pose proof (trun_keeps (one_request C) t0 s1) as (K1 & K2 & K3 & _).
  cbn zeta in *. intros W1 W2. split.
  - apply trun_same; rewrite ?S1, ?S2; apply within_past; assumption.
  - split; intros Z.
    + rewrite K1, S1, Z. cbn. apply D1, Z.
    + rewrite K2, S2, Z. cbn. apply D2, Z.
Qed.

Lemma tserve_same rto wto fuel : forall t s, dl_ok rto wto t -> punctual C E delay rto wto fuel t s ->
  serve C E fuel s = (fst (tserve C E delay rto wto fuel t s), snd (snd (tserve C E delay rto wto fuel t s))).
Proof.
  induction fuel as [|f IH]; intros t s D P; [reflexivity|]. cbn [punctual] in P. cbn [serve tserve].
  pose proof (tbody_same rto wto t s D) as H. destruct (tbody C E delay rto wto t s) as [r [t' s']]. destruct P as (W1 & W2 & P).
  cbn [fst snd] in H. destruct (H W1 W2) as [-> D']. destruct r as [[|]|]; try reflexivity. apply IH; auto.
Qed.

(** No read waits past the read deadline. *)
Lemma tbody_bound rto wto t s : 0 < rto ->
  exists k, t_now (fst (snd (tbody C E delay rto wto t s))) <= t_now t + rto + spent delay (t_n t) k /\
    t_n (fst (snd (tbody C E delay rto wto t s))) = (t_n t + k)%nat.
Proof.
  intros Pos. unfold tbody. destruct (sexec C E SQuit s) as [q s1]. destruct q; [exists 0%nat; cbn; lia|].
  destruct (set_both rto wto t) as (S1 & S2 & S3 & S4 & _). pose proof (trun_keeps (one_request C) (t_set_wd wto (t_set_rd rto t)) s1) as (_ & _ & _ & k & K1 & K2).
  exists k. rewrite S4 in *. split; [|exact K1]. specialize (K2 (t_now t + rto)). rewrite S1, S3 in K2.
  destruct (N.ltb_spec 0 rto); [|lia]. specialize (K2 eq_refl). lia.
Qed.

Lemma request_lost rto wto a rest arr t s : e_quit E (s_step s) = false -> s_in s = x11 :: rest -> t_arr t = a :: arr ->
  t_now t <= a -> 0 < wto -> t_now t + wto <= a -> a < t_now t + rto ->
  fst (tbody C E delay rto wto t s) = Some false /\
  exists s', snd (snd (tbody C E delay rto wto t s)) = s' /\ s_sent s' = s_sent s ++ [(enc_resp_common hello_response, 0)].
Proof.
  intros Q I Ar L1 P L2 L3. unfold tbody. cbn [sexec]. rewrite Q.
  destruct (set_both rto wto t) as (S1 & S2 & S3 & S4 & S5). set (t0 := t_set_wd wto (t_set_rd rto t)) in *.
  destruct (N.ltb_spec 0 rto) as [_|]; [|lia]. destruct (N.ltb_spec 0 wto) as [_|]; [|lia].
  unfold one_request, parse_req_common, pcopy1. cbn [pbind slift sbind Timed.trun Timed.texec].
  assert (D : due 1 (s_in (tick s)) t0 = a).
  { unfold due. cbn [tick s_in]. rewrite I. unfold lenN. cbn [length]. destruct (N.leb_spec 1 (N.of_nat (S (length rest)))); [|lia].
    rewrite S5, Ar. assert (T : takeN 1 (a :: arr) = [a]) by (apply (takeN_app [a] arr); reflexivity). rewrite T. apply N.max_0_r. }
  unfold t_wait. cbn [N.eqb Pos.eqb]. rewrite D, S1, S3, (N.max_r _ _ L1).
  destruct (N.ltb_spec a (t_now t + rto)) as [_|]; [|lia].
  cbn [sexec fst snd]. unfold fl_copy. cbn [tick s_in]. rewrite I.
  assert (T1 : 1 <=? lenN (x11 :: rest) = true) by (apply N.leb_le; unfold lenN; cbn [length]; lia). rewrite T1.
  assert (T2 : takeN 1 (x11 :: rest) = [x11]) by (apply (takeN_app [x11] rest); reflexivity). rewrite T2.
  assert (T3 : dropN 1 (x11 :: rest) = rest) by (apply (dropN_app [x11] rest); reflexivity). rewrite T3.
  cbn [fst snd pbind slift sbind rq_version rq_action]. unfold version1.
  change (N.shiftr (N.land (b2n x11) 240) 4 =? 1) with true. cbv iota. unfold handle. cbn [rq_action].
  change (N.land (b2n x11) 15 =? action_hello) with true. cbv iota.
  unfold write_response, sdo. cbn [sbind Timed.trun Timed.texec sexec].
  assert (Pw : past (t_wd (t_pass delay (t_at t0 a (dropN 1 (t_arr t0))))) (t_now (t_pass delay (t_at t0 a (dropN 1 (t_arr t0))))) = true).
  { cbn. rewrite S2. cbn. apply N.leb_le. lia. }
  rewrite Pw. cbn [Timed.trun fst snd]. split; [reflexivity|]. eexists. split; [reflexivity|]. reflexivity.
Qed.
End server.

Section client.
Variables (C : Crypto) (E : cenv) (delay : nat -> N).

Lemma write_sets_deadline rto wto reply ses p t s : 0 < wto -> ce_deadline E (c_step s) = true ->
  t_wd (fst (snd (timed_write C E delay rto wto reply ses p t s))) = Some (t_now t + wto).
Proof.
  intros P D. unfold timed_write, client_write, with_timeouts. cbn [co_wto co_reply]. destruct (N.ltb_spec 0 wto) as [_|]; [|lia].
  unfold cdo. cbn [cbind tcrun tcexec cexec]. rewrite D. cbn [fst snd negb].
  assert (W : t_wd (t_pass delay (t_set_wd wto t)) = Some (t_now t + wto)) by (unfold t_set_wd; destruct (N.ltb_spec 0 wto); [reflexivity|lia]).
  destruct (client_gcm C (cs_secret ses)) as [key|]; [|exact W]. cbn [cbind tcrun tcexec cexec fst snd].
  destruct (_ =? 0); [exact W|]. cbn [cbind tcrun tcexec cexec fst snd].
  destruct (past _ _); cbn [fst snd tcrun]; exact W.
Qed.

Lemma borrow_expired dl t s d : t_wd t = Some d -> d <= t_now t ->
  fst (tcrun C E delay dl test_on_borrow t s) = Some false /\
  c_sent (snd (snd (tcrun C E delay dl test_on_borrow t s))) = c_sent s ++ [([x11], 0)] /\ 
  c_in (snd (snd (tcrun C E delay dl test_on_borrow t s))) = c_in s.
Proof.
  intros W L. unfold test_on_borrow, cdo. cbn [cbind tcrun tcexec]. rewrite W.
  assert (Pw : past (Some d) (t_now t) = true) by (apply N.leb_le; exact L). rewrite Pw. cbn [fst snd orb tcrun].
  split; [reflexivity|]. split; reflexivity.
Qed.

Lemma dial_waits rto wto host pk rnd sk t s : t_rd t = None -> t_wd t = None -> c_in s = [] ->
  ce_fetch E host = Some pk -> ce_rand E = Some rnd -> ce_gen E = Some sk ->
  (forall i b, ce_write E i b = (lenN b, false)) ->
  (exists e, fst (timed_handshake C E delay rto wto (Some host) t s) = Some (inl (HsParse e))) /\
  t_eof t <= t_now (fst (snd (timed_handshake C E delay rto wto (Some host) t s))).
Proof.
  intros R W I F Rn G Wr. unfold timed_handshake, handshake, cdo. cbn [cbind tcrun tcexec cexec fst snd]. rewrite F. cbn [cbind tcrun tcexec cexec fst snd]. rewrite Rn.
  cbn [cbind tcrun tcexec cexec fst snd]. rewrite G. cbn [cbind tcrun tcexec cexec fst snd].
  set (req := enc_setup_req _).
  assert (Pw : forall t', t_wd t' = t_wd t -> past (t_wd t') (t_now t') = false) by (intros t' ->; rewrite W; reflexivity).
  rewrite Pw by reflexivity. rewrite Wr. cbn [fst snd tcrun]. rewrite N.min_id, N.eqb_refl. cbn [negb fst snd].
  unfold parse_resp_common, pcopy1. cbn [pbind clift cbind tcrun tcexec cexec].
  unfold t_wait. cbn [N.eqb Pos.eqb t_rd t_pass]. rewrite R.
  unfold due. cbn [c_in c_add_sent c_tick]. rewrite I. cbn [lenN length N.of_nat N.leb N.compare].
  unfold fl_copy. cbn [lenN length N.of_nat N.leb N.compare fst snd c_set_in c_in].
  destruct (ce_end E); cbn [fst snd pbind clift cbind tcrun].
  - split; [eexists; reflexivity|]. cbn. lia.
  - split; [eexists; reflexivity|]. cbn. lia.
Qed.
End client.

(** The test takes whatever comes first for the answer to its Hello. *)
Lemma borrow_takes C E s b rest : c_in s = b :: rest -> (forall i x, ce_write E i x = (lenN x, false)) ->
  exists s', crun C E test_on_borrow s = (Some (N.shiftr (b2n b) 7 =? 1), s') /\ c_in s' = rest /\
    c_sent s' = c_sent s ++ [([x11], 1)] /\ c_last s' = c_last s /\ c_buf s' = c_buf s /\ c_ctr s' = c_ctr s.
Proof.
  intros I W. unfold test_on_borrow, cdo. cbn [cbind crun cexec]. rewrite W. cbn [fst snd].
  rewrite N.min_id, N.eqb_refl. cbn [orb negb]. unfold parse_resp_common, pcopy1. cbn [pbind clift cbind crun cexec].
  unfold fl_copy. cbn [c_in c_add_sent c_tick]. rewrite I.
  assert (T1 : 1 <=? lenN (b :: rest) = true) by (apply N.leb_le; unfold lenN; cbn [length]; lia). rewrite T1.
  assert (T2 : takeN 1 (b :: rest) = [b]) by (apply (takeN_app [b] rest); reflexivity). rewrite T2.
  assert (T3 : dropN 1 (b :: rest) = rest) by (apply (dropN_app [b] rest); reflexivity). rewrite T3.
  cbn [pbind clift cbind crun rs_success]. eexists. split; [reflexivity|]. cbn. auto.
Qed.

(** Write replaces whatever write deadline there was. *)
Lemma write_ignores_deadline C E delay rto wto reply ses p t d s : 0 < wto -> ce_deadline E (c_step s) = true ->
  timed_write C E delay rto wto reply ses p {| t_now := t_now t; t_arr := t_arr t; t_eof := t_eof t; t_rd := t_rd t; t_wd := d; t_n := t_n t |} s
  = timed_write C E delay rto wto reply ses p t s.
Proof.
  intros P D. unfold timed_write, client_write, with_timeouts. cbn [co_wto co_reply]. destruct (N.ltb_spec 0 wto) as [L|]; [|lia].
  unfold cdo. cbn [cbind tcrun tcexec cexec]. rewrite D. cbn [fst snd negb]. unfold t_set_wd. rewrite (proj2 (N.ltb_lt 0 wto) L). reflexivity.
Qed.
Lemma read_ignores_deadline C E delay rto wto ses n t d s : 0 < rto -> ce_deadline E (c_step s) = true ->
  timed_read C E delay rto wto true ses n {| t_now := t_now t; t_arr := t_arr t; t_eof := t_eof t; t_rd := d; t_wd := t_wd t; t_n := t_n t |} s
  = timed_read C E delay rto wto true ses n t s.
Proof.
  intros P D. unfold timed_read, client_read, with_timeouts. cbn [co_rto co_reply]. destruct (N.ltb_spec 0 rto) as [L|]; [|lia].
  unfold cdo. cbn [cbind tcrun tcexec cexec]. rewrite D. cbn [fst snd negb]. unfold t_set_rd. rewrite (proj2 (N.ltb_lt 0 rto) L). reflexivity.
Qed.

Lemma punctual_serve C E delay rto wto fuel t s : fresh_conn t -> punctual C E delay rto wto fuel t s ->
  serve C E fuel s = (fst (tserve C E delay rto wto fuel t s), snd (snd (tserve C E delay rto wto fuel t s))).
Proof. intros [A B]. apply tserve_same. split; auto. Qed.
Lemma idle_fails C E delay rto wto reply ses p t s : 0 < wto -> ce_deadline E (c_step s) = true ->
  let t1 := fst (snd (timed_write C E delay rto wto reply ses p t s)) in
  forall E' dl t2 s2, t_wd t2 = t_wd t1 -> t_now t + wto <= t_now t2 ->
    let after := tcrun C E' delay dl test_on_borrow t2 s2 in
    fst after = Some false /\ c_sent (snd (snd after)) = c_sent s2 ++ [([x11], 0)] /\ c_in (snd (snd after)) = c_in s2.
Proof.
  intros P D t1 E' dl t2 s2 W L. unfold t1 in W. rewrite (write_sets_deadline C E delay rto wto reply ses p t s P D) in W.
  exact (borrow_expired C E' delay dl t2 s2 _ W L).
Qed.

(** ** The test passes exactly on an answer *)
Lemma borrow_iff C E s : let '(r, s') := crun C E test_on_borrow s in
  (r = Some true <-> (exists n, ce_write E (c_step s) [x11] = (n, false) /\ 1 <= n) /\
                     exists b rest, c_in s = b :: rest /\ 128 <= b2n b) /\
  (r = Some true \/ r = Some false) /\
  c_last s' = c_last s /\ c_buf s' = c_buf s /\ c_ctr s' = c_ctr s /\ c_seals s' = c_seals s.
Proof.
  unfold test_on_borrow, cdo. cbn [cbind crun cexec]. change (enc_req_common hello_request) with [x11].
  destruct (ce_write E (c_step s) [x11]) as [n err] eqn:W. cbn [fst snd]. change (lenN [x11]) with 1.
  assert (D : err || negb (N.min n 1 =? 1) = false <-> err = false /\ 1 <= n).
  { destruct err; cbn; [split; [discriminate|intros [? _]; discriminate]|].
    destruct (N.eqb_spec (N.min n 1) 1) as [H|H]; cbn; split; try discriminate; try (intros _; split; [reflexivity|lia]); try reflexivity.
    intros [_ H2]. lia. }
  destruct (err || negb (N.min n 1 =? 1)) eqn:B.
  { cbn. split; [split; [discriminate|]|auto 6]. intros [(n' & H1 & H2) _]. injection H1 as <- ->.
    assert (true = false) by (apply D; auto). discriminate. }
  destruct D as [D _]. destruct (D eq_refl) as [-> Hn]. clear D B.
  unfold parse_resp_common, pcopy1. cbn [pbind clift cbind crun cexec].
  unfold fl_copy. cbn [c_in c_add_sent c_tick]. destruct (c_in s) as [|b rest] eqn:I.
  - change (1 <=? lenN (@nil byte)) with false. cbv iota.
    destruct (ce_end E); cbn; (split; [split; [discriminate|intros [_ (b & r & H & _)]; discriminate]|auto 6]).
  - assert (T1 : 1 <=? lenN (b :: rest) = true) by (apply N.leb_le; unfold lenN; cbn [length]; lia). rewrite T1.
    assert (T2 : takeN 1 (b :: rest) = [b]) by (apply (takeN_app [b] rest); reflexivity). rewrite T2.
    cbn [pbind clift cbind crun rs_success].
    assert (Hb : (N.shiftr (b2n b) 7 =? 1) = (128 <=? b2n b)).
    { pose proof (b2n_lt b). rewrite N.shiftr_div_pow2. change (2 ^ 7) with 128.
      destruct (N.leb_spec 128 (b2n b)) as [H1|H1].
      - apply N.eqb_eq. symmetry. apply (N.div_unique _ _ 1 (b2n b - 128)); lia.
      - rewrite N.div_small by lia. reflexivity. }
    rewrite Hb. split; [|destruct (128 <=? b2n b); cbn; auto 6].
    destruct (N.leb_spec 128 (b2n b)) as [H1|H1]; split; try discriminate; try reflexivity.
    + intros _. split; [exists n; auto|]. exists b, rest. auto.
    + intros [_ (b' & r' & H2 & H3)]. injection H2 as <- <-. lia.
Qed.
