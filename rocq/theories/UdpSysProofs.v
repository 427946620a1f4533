(** A conversation over UDP among others ends as it would alone. *)
From Verif Require Import Bytes BytesProofs Parser ParserProofs Crypto Kdf Wire WireProofs WireSeq Replay SpecReplay
  Server ServerSeq SpecServer ServerProofs MultiConn SpecMulti MultiProofs Keys
  Client ClientSeq SpecClient ClientProofs SpecE2E E2EProofs System SpecSystem Kahn Duo DuoRun DuoTalk SystemSim SystemProofs
  Udp SpecUdp UdpProofs UdpThms UdpSystem SpecUdpSystem UdpDuo UdpTalk UdpSim.

Definition new_socket : udpc * unet := (new_udp false, {| n_in := []; n_out := []; n_step := 0; n_closed := false |}).

Lemma sim_udialling C CE hostof me key waiting m {A} (p : cprog A) : sane m -> Forall (fun q => fst q <> me) waiting ->
  exists f N, simu C CE hostof me key A (udialling C waiting m p)
    {| w_cl := p; w_cx := new_socket; w_cs := blank; w_mode := UIdle m; w_k := 0; w_calls := [] |} f N.
Proof.
  intros [Hlt Hinj] Hw. set (K := fun k => bytes_eqb k key).
  exists (fun a b => a = b /\ exists k, K k = true /\ m_map m k = Some a),
         (fun a => exists k, K k = false /\ m_map m k = Some a).
  constructor; cbn [udialling v_cl v_cx v_cs v_q v_srv v_from v_done v_mine v_others w_cl w_cx w_cs w_mode w_k w_calls];
    try reflexivity; try (intros; lia).
  - cbn [at_mode v_srv t_mem v_mine]. split; [|split; [reflexivity|]].
    + constructor; cbn.
      * intros a b b' [-> _] [-> _]. reflexivity.
      * intros a a' b [-> _] [-> _]. reflexivity.
      * intros a b [<- (k & _ & Hk)]. apply Hlt in Hk. lia.
      * intros a b [<- _]. reflexivity.
      * intros k Hk. destruct (m_map m k) eqn:Em; [|exact I]. split; [reflexivity|]. exists k. auto.
      * intros a (k & _ & Hk). eauto.
      * intros a b (k & Hk & Ha) [_ (k' & Hk' & Ha')]. rewrite (Hinj _ _ _ Ha Ha') in Hk. congruence.
      * intros k a Hk Ha. exists k. auto.
    + unfold own_q. cbn [udialling v_q]. induction Hw as [|q l Hq Hl IH]; [reflexivity|]. cbn [filter].
      destruct (bytes_eqb_spec (fst q) me); [contradiction|exact IH].
Qed.

Section Theorem1.
  Variables (C : Crypto) (CE : cenv) (E : nat -> senv) (hostof : bytes -> option bytes) (chunk : nat -> N) (me srv : bytes)
    (waiting : list (bytes * bytes)) (m : mem)
    (chost host csk rnd : bytes) (ssk : privkey) (o : copts) (n : N) (f : bytes -> bytes) (ps : list bytes).
  Hypothesis L : CryptoLaws C.
  Hypothesis U : forall k, undisturbed C CE (dgram_env (E (2 * k)%nat) (hostof me)) chost host csk rnd ssk.
  Hypothesis Hsig : forall k i d sig, e_sign (E (2 * k)%nat) i SHA512 d = KOk sig -> lenN sig + 54 <= 65507.
  Hypothesis Ho : co_reply o = true.
  Hypothesis Hw : Forall (fun q => fst q <> me) waiting.
  Hypothesis Hm : wf (join m (fresh_conn C false [])).
  Hypothesis Hlen : lenN ps < 2 ^ 64.
  Hypothesis Hp : Forall (fun p => lenN p + 50 <= 65507) ps.
  Hypothesis Hf : forall k i p, In p ps -> e_handler (E (2 * k)%nat) i true p = HOk (f p).
  Hypothesis Hr : Forall (fun p => f p <> [] /\ lenN (f p) + 33 <= 65507 /\ lenN (f p) <= n) ps.
  Let key := session_key C chost (uuid_of rnd).
  Let start := udialling C waiting m (talk C o (Some host) n ps).
  Notation moves := (uown_moves C CE E hostof chunk me srv).
  Notation rests := (urests C CE E hostof chunk me srv).

  Theorem uconversation : exists N, forall sched x,
    uspares C CE E hostof chunk me srv key sched start -> usys_run C CE E hostof chunk me srv sched start = Some x ->
    (moves sched start <= N)%nat /\
    (rests x <-> moves sched start = N) /\
    (rests x -> v_cl x = CRet (inr (expected o f ps)) /\ ucalls x = numbered 1 true ps) /\
    (forall a, v_cl x = CRet a -> a = inr (expected o f ps)) /\ v_cl x <> CPanic /\
    exists later, numbered 1 true ps = ucalls x ++ later.
  Proof.
    destruct (utalk_path C CE (fun k => dgram_env (E (2 * k)%nat) (hostof me)) chunk srv chost host csk rnd ssk o L U Hsig Ho
      blank new_socket m n f ps Hm) as (N & t & z & P & Hz & G & Zc & Zs); auto.
    { repeat split. }
    exists N. intros sched x Hsp Hrun.
    assert (Hsane : sane m) by (destruct Hm as [W1 W2 _]; split; [exact W1|exact W2]).
    destruct (sim_udialling C CE hostof me key waiting m (talk C o (Some host) n ps) Hsane Hw) as (f0 & N0 & S0).
    assert (Hcl : forall R e k, w_cl z <> @CDo _ R e k) by (rewrite Zc; discriminate).
    destruct (sim_usched C CE E hostof chunk me srv key _ sched _ _ _ _ _ _ _ _ S0 P Hz G Hcl Hsp Hrun)
      as (y & f1 & N1 & m1 & t1 & S1 & P1 & G1 & ->).
    pose proof (sim_urests C CE E hostof chunk me srv key _ _ _ _ _ _ _ _ S1 P1 Hz G1 Hcl) as SR.
    edestruct upath_done as [D1 D2]; [exact P1|]. edestruct upath_seen as (l & Hl); [exact P1|].
    assert (ucalls x = w_seen _ y) as Hca by (eapply sim_ucalls; exact S1).
    assert (v_cl x = w_cl y) as Hxy by (eapply su_cl; exact S1).
    assert (Hws : w_seen _ z = numbered 1 true ps).
    { destruct Hz as [_ Z2]. unfold w_seen. rewrite Zs. unfold ugo_s in Z2.
      destruct (w_mode z) as [|?|m2 c2]; [apply app_nil_r|discriminate|destruct (c_prog c2); discriminate]. }
    fold start. split; [lia|]. split; [rewrite SR; lia|]. split.
    { intros H. apply SR in H. subst m1. inversion P1; subst. split; [rewrite Hxy; exact Zc|]. congruence. }
    rewrite Hxy.
    split; [intros a Ha; apply D1 in Ha; congruence|]. split; [intros Ha; apply D2 in Ha; congruence|].
    exists l. rewrite Hca. congruence.
  Qed.

  (** ** Other hosts *)
  Hypothesis Hother : forall a hst id, a <> me -> hostof a = Some hst -> lenN id = 16 -> session_key C hst id <> key.
  Let Q (k : bytes) : Prop := k <> key.
  Definition uapart {A} (x : usys A) : Prop :=
    forall i, (i < v_others x)%nat -> v_from x (2 * i + 1) <> me /\
      nrel Q (hostof (v_from x (2 * i + 1))) (fun _ => True) (t_conn (v_srv x) (2 * i + 1)).
  Lemma uother_own a : a <> me -> own_key C Q (hostof a).
  Proof. intros Ha hst id Hh Hid. apply (Hother a); assumption. Qed.

  Lemma uapart_move {A} (x y : usys A) v : uapart x -> usys_move C CE E hostof chunk me srv x v = Some y -> uapart y.
  Proof.
    intros Ha Hv. destruct v as [| |j|j|a d|k]; cbn [usys_move] in Hv.
    - destruct (v_cl x) as [| |R e k]; try discriminate. destruct (u_ready e _); [|discriminate].
      destruct (ucexec _ _ _ _ _ _ _) as [r [cx s]]. injection Hv as <-. exact Ha.
    - destruct (v_q x) as [|[a d] q]; [discriminate|]. apply some_inj in Hv. subst y. intros i.
      cbn [v_others v_from v_srv]. unfold upd. cbn [set_conn t_conn fst snd].
      destruct (bytes_eqb_spec a me) as [->|Hne]; intros Hi.
      + rewrite !(eqb_ne (2 * i + 1) (2 * v_mine x)) by lia. apply Ha, Hi.
      + destruct (Nat.eqb_spec (2 * i + 1) (2 * v_others x + 1)); [|apply Ha; lia].
        split; [exact Hne|]. exists (one_request C). cbn [fresh_conn c_prog]. apply ev_request, uother_own, Hne.
    - destruct (c_prog (t_conn (v_srv x) j)); try discriminate. destruct (runs x j); [|discriminate].
      apply some_inj in Hv. subst y. intros i Hi. cbn [with_srv v_others v_from v_srv set_conn t_conn fst snd] in *.
      destruct (Ha i Hi) as [H1 H2]. split; [exact H1|].
      destruct (Nat.eqb_spec (2 * i + 1) j) as [<-|]; [|exact H2].
      apply (nrel_step C (fun _ => dgram_env (E (2 * i + 1)%nat) (hostof (v_from x (2 * i + 1)))) (fun _ => false) 0);
        [reflexivity|apply uother_own, H1|exact H2].
    - destruct (c_prog (t_conn (v_srv x) j)); try discriminate; destruct (runs x j); try discriminate;
        apply some_inj in Hv; subst y; exact Ha.
    - destruct (bytes_eqb a me); [discriminate|]. apply some_inj in Hv. subst y. exact Ha.
    - apply some_inj in Hv. subst y. exact Ha.
  Qed.
  Lemma uapart_spares {A} sched : forall x y : usys A, uapart x -> (forall k, In (UCollect k) sched -> k <> key) ->
    usys_run C CE E hostof chunk me srv sched x = Some y -> uspares C CE E hostof chunk me srv key sched x.
  Proof.
    induction sched as [|v l IH]; intros x y Ha Hc Hrun; [exact I|]. cbn [uspares usys_run] in *.
    destruct (usys_move C CE E hostof chunk me srv x v) as [x1|] eqn:Ev; [|discriminate]. split.
    - destruct v as [| |j|j|a d|k]; cbn [uspares1]; try exact I.
      + intros Hj. destruct (odd_half j Hj) as [i ->]. cbn [usys_move] in Ev.
        destruct (c_prog (t_conn (v_srv x) (2 * i + 1))) as [| |R e k] eqn:Ep; try discriminate.
        destruct (runs x (2 * i + 1)) eqn:Er; [|discriminate]. apply runs_odd in Er. destruct Er as [Er _].
        destruct (Ha i Er) as [_ [q Hq]]. rewrite Ep in Hq. clear - Hq. remember (SDo e k) as pp eqn:Epp. clear Epp.
        destruct Hq; cbn; try discriminate.
        * destruct e0; try discriminate.
        * intros E0; injection E0 as ->. contradiction.
        * intros E0; injection E0 as ->. contradiction.
      + apply Hc. left. reflexivity.
    - eapply IH; [eapply uapart_move; eassumption| |exact Hrun]. intros k Hk. apply Hc. right. exact Hk.
  Qed.

  Theorem uconversation_hosts : exists N, forall sched x,
    (forall k, In (UCollect k) sched -> k <> key) -> usys_run C CE E hostof chunk me srv sched start = Some x ->
    (moves sched start <= N)%nat /\
    (rests x <-> moves sched start = N) /\
    (rests x -> v_cl x = CRet (inr (expected o f ps)) /\ ucalls x = numbered 1 true ps) /\
    (forall a, v_cl x = CRet a -> a = inr (expected o f ps)) /\ v_cl x <> CPanic /\
    exists later, numbered 1 true ps = ucalls x ++ later.
  Proof.
    destruct uconversation as (N & HN). exists N. intros sched x Hc Hrun. apply HN; [|exact Hrun].
    eapply uapart_spares; [|exact Hc|exact Hrun]. intros i Hi. cbn in Hi. lia.
  Qed.
End Theorem1.
