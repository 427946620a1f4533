(** A conversation among others ends as it would alone. *)
From Verif Require Import Bytes BytesProofs Parser ParserProofs Crypto Kdf Wire WireProofs WireSeq Replay SpecReplay
  Server ServerSeq SpecServer ServerProofs MultiConn SpecMulti MultiProofs Keys
  Client ClientSeq SpecClient ClientProofs SpecE2E E2EProofs System SpecSystem Kahn Duo DuoRun DuoTalk SystemSim.

Definition blank : cst :=
  {| c_in := []; c_step := 0; c_sent := []; c_ctr := 0; c_last := 0; c_buf := []; c_seals := [] |}.

Lemma sim_dialling C E tcp me K inputs m {A} (p : cprog A) : tcp me = true -> sane m ->
  exists f N, simd E me K A (dialling C tcp inputs m me p)
    {| d_cl := p; d_cs := blank; d_sp := conn_body C; d_ss := join m (fresh_conn C true []) |} f N.
Proof.
  intros Htcp [Hlt Hinj].
  exists (fun a b => a = b /\ exists k, K k = true /\ m_map m k = Some a),
         (fun a => exists k, K k = false /\ m_map m k = Some a). constructor; cbn.
  - reflexivity.
  - reflexivity.
  - constructor; cbn.
    + intros a b b' [-> _] [-> _]. reflexivity.
    + intros a a' b [-> _] [-> _]. reflexivity.
    + intros a b [<- (k & _ & Hk)]. apply Hlt in Hk. lia.
    + intros a b [<- _]. reflexivity.
    + intros k Hk. destruct (m_map m k) eqn:Em; [|exact I]. split; [reflexivity|]. exists k. auto.
    + intros a (k & _ & Hk). eauto.
    + intros a b (k & Hk & Ha) [_ (k' & Hk' & Ha')]. rewrite (Hinj _ _ _ Ha Ha') in Hk. congruence.
    + intros k a Hk Ha. exists k. auto.
  - rewrite Nat.eqb_refl, Htcp. repeat split. cbn. apply ev_body, any_own.
  - intros j Hj. exists (if tcp j then conn_body C else one_request C). cbn [c_prog fresh_conn].
    destruct (tcp j); [apply ev_body|apply ev_request]; apply any_own.
Qed.

Section Theorem1.
  Variables (C : Crypto) (CE : cenv) (E : nat -> senv) (tcp : nat -> bool) (me : nat) (inputs : nat -> bytes) (m : mem)
    (chost host csk rnd : bytes) (ssk : privkey) (o : copts) (n : N) (f : bytes -> bytes) (ps : list bytes).
  Hypothesis L : CryptoLaws C.
  Hypothesis U : undisturbed C CE (E me) chost host csk rnd ssk.
  Hypothesis Htcp : tcp me = true.
  Hypothesis Hm : wf (join m (fresh_conn C true [])).
  Hypothesis Hlen : lenN ps < 2 ^ 64.
  Hypothesis Hp : Forall (fun p => lenN p + 16 <= 2 ^ 30) ps.
  Hypothesis Hf : forall i p, In p ps -> e_handler (E me) i (co_reply o) p = HOk (f p).
  Hypothesis Hr : co_reply o = true -> Forall (fun p => f p <> [] /\ lenN (f p) + 16 <= 2 ^ 30 /\ lenN (f p) <= n) ps.
  Let key := session_key C chost (uuid_of rnd).
  Let start := dialling C tcp inputs m me (talk C o (Some host) n ps).

  Theorem conversation : exists N, forall sched x,
    spares C CE E tcp me key sched start -> sys_run C CE E tcp me sched start = Some x ->
    (own_moves sched <= N)%nat /\
    (rests C CE E tcp me x <-> own_moves sched = N) /\
    (rests C CE E tcp me x ->
       y_cl x = CRet (inr (expected o f ps)) /\
       seen (c_calls (t_conn (y_srv x) me)) = numbered 1 (co_reply o) ps) /\
    (forall a, y_cl x = CRet a -> a = inr (expected o f ps)) /\ y_cl x <> CPanic /\
    exists later, numbered 1 (co_reply o) ps = seen (c_calls (t_conn (y_srv x) me)) ++ later.
  Proof.
    destruct (talk_path C CE (E me) chost host csk rnd ssk o L U blank (join m (fresh_conn C true [])) n f ps Hm
      eq_refl eq_refl eq_refl eq_refl Hlen Hp Hf Hr) as (N & t & z & P & Hz & G & Zc & Zs).
    change (seen (s_calls (join m (fresh_conn C true []))) ++ numbered 1 (co_reply o) ps) with (numbered 1 (co_reply o) ps) in Zs.
    exists N. intros sched x Hsp Hrun.
    assert (Hsane : sane m) by (destruct Hm as [W1 W2 _]; split; [exact W1|exact W2]).
    destruct (sim_dialling C E tcp me (fun k => bytes_eqb k key) inputs m (talk C o (Some host) n ps) Htcp Hsane) as (f0 & N0 & S0).
    apply spares_keeps in Hsp.
    assert (G' : Forall (good (fun k => bytes_eqb k key)) t).
    { eapply Forall_impl; [|exact G]. intros l Hl k Hk. rewrite (Hl k Hk). apply bytes_eqb_refl. }
    destruct (sim_sched C CE E tcp me _ _ Htcp sched _ _ _ _ _ _ _ _ S0 P Hz G' Hsp Hrun)
      as (y & f1 & N1 & m1 & t1 & S1 & P1 & G1 & ->).
    pose proof (sim_rests C CE E tcp me _ _ Htcp _ _ _ _ _ _ _ S1 P1 Hz G1) as SR.
    pose proof (path_done _ _ _ _ _ _ _ _ P1) as [D1 D2]. destruct (path_calls _ _ _ _ _ _ _ _ P1) as (l & Hl).
    destruct S1 as [Q1 Q2 Q3 (A1 & A2 & A3 & A4 & A5) Q5]. cbn [conn_of c_calls] in A4.
    split; [lia|]. split; [rewrite SR; lia|]. split.
    { intros H. apply SR in H. subst m1. inversion P1; subst. split; [rewrite Q1; exact Zc|]. rewrite A4. exact Zs. }
    rewrite Q1. split; [intros a Ha; apply D1 in Ha; congruence|]. split; [intros Ha; apply D2 in Ha; congruence|].
    exists (seen l). rewrite A4, <- Zs, Hl. unfold seen. apply map_app.
  Qed.

  (** ** Other hosts *)
  Hypothesis Hother : forall j hst id, j <> me -> e_host (E j) = Some hst -> lenN id = 16 -> session_key C hst id <> key.

  Lemma nrel_step j mm c P h : h = e_host (E j) -> own_key C P h -> nrel P h (fun _ => True) c ->
    nrel P h (fun _ => True) (snd (conn_step C (E j) (tcp j) mm c)).
  Proof.
    intros -> Hown [q Hq]. unfold conn_step. destruct c as [p inp k0 se ca]. cbn [c_prog] in *.
    remember (fun a b : nat => a = b /\ True) as d eqn:Ed.
    assert (Hd : forall a, d a a) by (subst d; auto).
    assert (Keep : forall c, (exists q, eqv P (e_host (E j)) d (c_prog c) q) ->
                   nrel P (e_host (E j)) (fun _ => True) c) by (subst d; auto).
    clear Ed. apply Keep.
    destruct Hq as [d b|d|d n0 k k' Hk|d R e k k' Hpl Hk|d k k' Hk|d s k k' Hk|d kk a b k k' HP Hab Hk
      |d kk k k' HP Hn Hk|d a b k k' Hab Hk|d a b cc k k' Hab Hk|d a b cc rr mm' k k' Hab Hk
      |d a b cc kk nn pt k k' Hab Hk].
    - destruct b; cbn [snd]; [destruct (tcp j)|]; eexists; [apply ev_body, Hown|apply eqv_ret|apply eqv_ret].
    - eexists. apply eqv_panic.
    - cbn [sexec join s_in c_in]. destruct (fl_read n0 inp (e_end (E j))) as [r l] eqn:Er. cbn in Er |- *. rewrite Er. eexists. cbn. apply Hk.
      intros b ->. apply fl_read_len in Er. exact Er.
    - destruct (sexec C (E j) e _) as [r s]. eexists. cbn. apply Hk.
    - eexists. cbn. exact Hk.
    - eexists. cbn. apply (Hk d (m_next mm) (m_next mm)); [apply sub_refl|apply Hd].
    - destruct (sexec C (E j) (SStore kk a) _) as [r s]. eexists. cbn. apply Hk.
    - cbn. destruct (m_map mm kk) as [a|].
      + eexists. apply (Hk d a a); [apply sub_refl|apply Hd].
      + eexists. exact Hn.
    - eexists. cbn. apply Hk.
    - cbn [sexec]. destruct (check_and_update _ cc) as [r w]. eexists. cbn. apply Hk.
    - eexists. cbn. apply Hk.
    - eexists. cbn. apply Hk.
  Qed.

  Let P (k : bytes) : Prop := k <> key.
  Definition apart {A} (x : sys A) : Prop := forall j, j <> me -> nrel P (e_host (E j)) (fun _ => True) (t_conn (y_srv x) j).
  Lemma other_own j : j <> me -> own_key C P (e_host (E j)).
  Proof. intros Hj hst id Hh Hid. apply (Hother j); assumption. Qed.

  Lemma apart_start : apart start.
  Proof.
    intros j Hj. exists (if tcp j then conn_body C else one_request C). cbn [start dialling y_srv c_prog fresh_conn starting t_conn].
    destruct (tcp j); [apply ev_body|apply ev_request]; apply other_own, Hj.
  Qed.
  Lemma apart_move {A} (x y : sys A) v : apart x -> sys_move C CE E tcp me x v = Some y -> apart y.
  Proof.
    intros Ha Hv j Hj. specialize (Ha j Hj).
    destruct v as [| |i|i b|k]; cbn [sys_move] in Hv.
    - destruct (y_cl x) as [| |R e k]; try discriminate. destruct (c_ready e _); [|discriminate].
      destruct (cexec C CE e (y_cs x)). injection Hv as <-. cbn. rewrite (eqb_ne _ _ Hj). exact Ha.
    - destruct (c_prog (t_conn (y_srv x) me)) as [[|]| |R e k]; try discriminate.
      + destruct (tcp me); [|discriminate]. injection Hv as <-. cbn. rewrite (eqb_ne _ _ Hj). exact Ha.
      + destruct (s_ready e _); [|discriminate]. injection Hv as <-. cbn. rewrite (eqb_ne _ _ Hj). exact Ha.
    - destruct (Nat.eqb_spec i me); [discriminate|]. injection Hv as <-. cbn.
      destruct (Nat.eqb_spec j i) as [->|]; [|exact Ha]. apply nrel_step; [reflexivity|apply other_own, Hj|exact Ha].
    - destruct (Nat.eqb_spec i me); [discriminate|]. injection Hv as <-. cbn.
      destruct (Nat.eqb_spec j i) as [->|]; [|exact Ha]. exact Ha.
    - injection Hv as <-. exact Ha.
  Qed.
  Lemma apart_spares {A} sched : forall x : sys A, apart x -> (forall k, In (MCollect k) sched -> k <> key) ->
    (forall j, In (MOther j) sched -> j <> me) -> spares C CE E tcp me key sched x.
  Proof.
    induction sched as [|v l IH]; intros x Ha Hc Hj; [exact I|]. cbn [spares]. split.
    - destruct v as [| |j|j b|k]; cbn [spares1]; try exact I.
      + destruct (Ha j (Hj j (or_introl eq_refl))) as [q Hq]. destruct Hq; cbn; try discriminate.
        * destruct e; try discriminate.
        * intros E0; injection E0 as ->. contradiction.
        * intros E0; injection E0 as ->. contradiction.
      + apply Hc. left. reflexivity.
    - destruct (sys_move C CE E tcp me x v) as [y|] eqn:Ev; [|exact I]. apply IH.
      + eapply apart_move; eassumption.
      + intros k Hk. apply Hc. right. exact Hk.
      + intros k Hk. apply Hj. right. exact Hk.
  Qed.
  Lemma run_others sched : forall (x y : sys (hs_error + list rd_result)), sys_run C CE E tcp me sched x = Some y ->
    forall j, In (MOther j) sched -> j <> me.
  Proof.
    induction sched as [|v l IH]; intros x y H j Hin; [destruct Hin|]. cbn [sys_run] in H.
    destruct (sys_move C CE E tcp me x v) as [x1|] eqn:Ev; [|discriminate]. destruct Hin as [->|Hin].
    - cbn in Ev. destruct (Nat.eqb_spec j me); [discriminate|assumption].
    - eapply IH; eassumption.
  Qed.

  Theorem conversation_hosts : exists N, forall sched x,
    (forall k, In (MCollect k) sched -> k <> key) -> sys_run C CE E tcp me sched start = Some x ->
    (own_moves sched <= N)%nat /\
    (rests C CE E tcp me x <-> own_moves sched = N) /\
    (rests C CE E tcp me x ->
       y_cl x = CRet (inr (expected o f ps)) /\
       seen (c_calls (t_conn (y_srv x) me)) = numbered 1 (co_reply o) ps) /\
    (forall a, y_cl x = CRet a -> a = inr (expected o f ps)) /\ y_cl x <> CPanic /\
    exists later, numbered 1 (co_reply o) ps = seen (c_calls (t_conn (y_srv x) me)) ++ later.
  Proof.
    destruct conversation as (N & HN). exists N. intros sched x Hc Hrun. apply HN; [|exact Hrun].
    apply apart_spares; [exact apart_start|exact Hc|]. eapply run_others. exact Hrun.
  Qed.
End Theorem1.
