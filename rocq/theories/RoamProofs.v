(** Lemmas for C183: a client over UDP whose address changes. *)
From Verif Require Import Bytes BytesProofs Parser ParserProofs Crypto Kdf Wire WireProofs WireSeq WireExtra Replay SpecReplay
  ReplayProofs Server ServerSeq SpecServer ServerProofs ServerProps ServerProps2 ServerProps3 MultiConn SpecMulti Keys KeysProofs
  Client ClientSeq SpecClient ClientProofs SpecE2E E2EProofs LostProofs Udp SpecUdp UdpProofs UdpThms UdpMore UdpTalk SpecUdpLoss UdpLoss SpecRoam.

Definition err3 : bytes := enc_response (RsError 3 msg_unknown).
Lemma err3_ok : response_ok (RsError 3 msg_unknown).
Proof. vm_compute. repeat split; congruence. Qed.
Lemma err3_len : lenN err3 <= 65507.
Proof. vm_compute. congruence. Qed.

Section Roaming.
  Variables (C : Crypto) (CE : cenv) (SE : senv) (hostof : bytes -> option bytes) (chunk : nat -> N) (send : nat -> bytes -> bool)
    (srv : bytes) (o : copts) (ses : csession) (n : N) (chost : bytes) (f : bytes -> bytes) (home : bytes -> bool).
  Hypothesis L : CryptoLaws C.
  Hypothesis WC : forall i, ce_deadline CE i = true.
  Hypothesis Hsend : forall i b, lenN b <= 65507 -> send i b = true.
  Hypothesis Ho : co_reply o = true.

  Lemma away_serve a h id c ct ss sn : hostof a = Some h -> request_ok (RqProcess id c ct true) -> wf ss ->
    known C ss h id = None -> n_closed sn = false -> n_in sn = [] ->
    exists r sn' ss', udp_exchange C SE hostof chunk send (arrive a (enc_request (RqProcess id c ct true)) sn) ss = (r, (sn', ss')) /\
      n_closed sn' = false /\ n_in sn' = [] /\ left_since sn sn' = [err3] /\ s_calls ss' = s_calls ss /\ wf ss' /\ same_sessions C ss ss'.
  Proof.
    intros Hh Hok Hwf Hkn Hop Hin. set (q := enc_request _).
    destruct (exchange_flat C SE hostof chunk send (arrive a q sn) ss a q [] Hop ltac:(cbn; rewrite Hin; reflexivity))
      as (r & s1 & l & ok & sn' & ss' & -> & R & Hs1 & Hsent & Hfull & Hin' & Hcl' & Hout).
    set (E := dgram_env SE (hostof a)) in *. set (s0 := set_in ss q) in *.
    assert (Hin0 : s_in s0 = q ++ []) by (rewrite app_nil_r; reflexivity).
    assert (Hwf0 : wf s0) by (apply (wf_same ss); auto).
    set (E0 := shift (s_step s0) E).
    assert (Q0 : e_quit E0 (s_step s0) = false) by (cbn [E0 shift e_quit]; rewrite Nat.eqb_refl; reflexivity).
    pose proof (unknown_run C E0 s0 h id ct [] c true Hok Hin0 Q0 Hh Hkn) as PA.
    pose proof (WF_conn C E0 s0 Hwf0) as WF'.
    unfold E0 in PA, WF'. rewrite one_request_conn in PA, WF'. fold E0 in PA, WF'.
    rewrite R in PA, WF'. cbn [fst snd] in PA, WF'.
    destruct PA as ((kk & Prs) & Pc & Ps).
    change (s_sent (tick s1)) with (s_sent s1) in Prs. change (s_sent s0) with (s_sent ss) in Prs.
    change (enc_response (RsError 3 msg_unknown)) with err3 in Prs.
    rewrite Prs in Hsent. apply app_inv_head in Hsent. subst l. inversion Hfull as [|? ? F1 _]. cbn [fst snd] in F1. subst kk.
    pose proof (UdpThms.wire_one err3 (lenN err3) eq_refl) as Ww. rewrite Ww in Hout.
    destruct Hout as [(X & _)|(_ & Hok' & Hout)]; [exfalso; revert X; apply enc_response_ne|].
    rewrite Hsend in Hok' by apply err3_len. subst ok.
    do 3 eexists. split; [reflexivity|]. split; [exact Hcl'|]. split; [exact Hin'|]. split; [exact (left_since_one _ _ _ _ Hout)|].
    assert (X : s_calls ss' = s_calls s1) by (rewrite <- Hs1; reflexivity). split; [rewrite X; exact Pc|].
    split; [apply (wf_same (tick s1)); auto; rewrite <- Hs1; reflexivity|].
    rewrite <- Hs1 in Ps. exact Ps.
  Qed.

  (** What is true of an address. *)
  Definition placed (ss : sst) (a : bytes) : Prop :=
    if home a then hostof a = Some chost else exists h, hostof a = Some h /\ known C ss h (cs_id ses) = None.

  Lemma roam_round p a hist cs x sn ss : llinked C ses chost hist cs x sn ss -> c_ctr cs + 1 < two64 -> lenN p + 50 <= 65507 -> placed ss a ->
    (home a = true -> (forall i, e_handler SE i true p = HOk (f p)) /\ f p <> [] /\ lenN (f p) + 33 <= 65507 /\ lenN (f p) <= n) ->
    let '(_, ((u, net), c1)) := ucrun C CE chunk send (client_write C o ses p) x cs in
    let '(_, (sn1, s1)) := udp_exchange C SE hostof chunk send (arrive_all a (left_since (snd x) net) sn) ss in
    let '(r, (x2, c2)) := ucrun C CE chunk send (client_read C o ses n) (u, arrive_all srv (left_since sn sn1) net) c1 in
    r = Some (if home a then RdOk (f p) true else RdErr (RdRemote 3 msg_unknown)) /\ c_ctr c2 = c_ctr cs + 1 /\
    (exists hist', llinked C ses chost hist' c2 x2 sn1 s1) /\ (forall b, placed ss b -> placed s1 b) /\
    seen (s_calls s1) = seen (s_calls ss) ++ (if home a then [(c_ctr cs + 1, true, p)] else []) /\
    forall h i, session_key C h i <> session_key C chost (cs_id ses) -> known C s1 h i = known C ss h i.
  Proof.
    intros Hl Hc Hp Ha Hf. destruct (home a) eqn:Eh.
    - destruct (Hf eq_refl) as (Hf1 & Hf2). assert (Hh : hostof a = Some chost) by (unfold placed in Ha; rewrite Eh in Ha; exact Ha).
      pose proof (lossy_round C CE SE hostof chunk send a srv o ses n chost f L WC Hsend Hh Ho p Arrives 0 hist cs x sn ss Hl Hc Hp Hf1 Hf2) as G.
      destruct Hl as [P Hle Hcl [Hop Hops] [Hin Hins]]. destruct x as [u0 net0]. cbn [fst snd] in *.
      destruct (client_gcm_some C L (cs_secret ses)) as (key & K). pose proof P as [Hwf Hid Hkn Hhist Hbuf].
      destruct (lossy_write C CE chunk send o ses L WC Hsend Ho p u0 net0 cs key Hcl Hop Hid K Hc Hp) as (w & u & net & c1 & Ew & U1 & U2 & U3 & U4 & U5 & U6 & U7 & U8).
      rewrite Ew in *. rewrite (left_since_one _ _ _ _ U5) in *. cbn [serve_lossy arrive_all fold_left] in *.
      destruct (lossy_serve_frame C CE SE hostof chunk send a o ses chost f L WC Hsend Hh p hist cs ss sn key P Hle Hops Hins K Hc Hp Hf1 ltac:(apply Hf2))
        as (r & sn' & ss' & RS & S1 & S2 & S3 & S4 & S5 & S6 & S7).
      rewrite RS in *. cbn [udp_reads] in G.
      destruct (ucrun C CE chunk send (client_read C o ses n) _ c1) as [r1 [x2 c2]]. destruct G as ([_ (es & G1 & _)] & G2 & G3 & G4).
      split; [injection G1; auto|]. split; [exact G2|]. split; [exact G3|]. split; [|split; [exact G4|exact S7]].
      intros b Hb. unfold placed in *. destruct (home b); [exact Hb|]. destruct Hb as (h & Hb1 & Hb2). exists h. split; [exact Hb1|].
      rewrite S7; [exact Hb2|]. intro X. unfold known in Hb2, Hkn. rewrite X in Hb2. rewrite Hkn in Hb2. discriminate Hb2.
    - assert (Hh : exists h, hostof a = Some h /\ known C ss h (cs_id ses) = None) by (unfold placed in Ha; rewrite Eh in Ha; exact Ha).
      destruct Hh as (h & Hh & Hun). destruct Hl as [P Hle Hcl [Hop Hops] [Hin Hins]]. destruct x as [u0 net0]. cbn [fst snd] in *.
      destruct (client_gcm_some C L (cs_secret ses)) as (key & K). pose proof P as [Hwf Hid Hkn Hhist Hbuf].
      destruct (lossy_write C CE chunk send o ses L WC Hsend Ho p u0 net0 cs key Hcl Hop Hid K Hc Hp) as (w & u & net & c1 & -> & U1 & U2 & U3 & U4 & U5 & U6 & U7 & U8).
      rewrite (left_since_one _ _ _ _ U5). cbn [arrive_all fold_left]. rewrite Hin in U3. rewrite Hbuf in U8. set (c := c_ctr cs + 1) in *.
      assert (Hrq : request_ok (RqProcess (cs_id ses) c (gcm_seal C key (gcm_nonce dir_c2s c) p) true)).
      { split; [exact Hid|]. split; [exact Hc|]. rewrite (gcm_seal_len _ L). unfold max_message_size. lia. }
      destruct (away_serve a h (cs_id ses) c _ ss sn Hh Hrq Hwf Hun Hops Hins) as (r & sn1 & s1 & RS & S1 & S2 & S3 & S4 & S5 & S6).
      rewrite RS, S3. change (arrive_all srv [err3] net) with (arrive srv err3 net).
      destruct (any_error_run_last C (eof_env CE) o ses n (c_set_in c1 err3) 3 msg_unknown [] (eof_works CE WC) U8 err3_ok)
        as (s3 & R & R1 & R2 & R3 & R4 & R5); [symmetry; apply app_nil_r|].
      assert (Hh1 : holds u (arrive srv err3 net) err3 []) by (right; split; [exact U2|]; split; [exact U4|]; exists srv; cbn; rewrite U3; reflexivity).
      pose proof (ucrun_flat C CE chunk send _ _ (nowrite_read C o ses n) u (arrive srv err3 net) c1 _ _ Hh1) as F. rewrite R in F.
      destruct F as (u2 & n2 & s2 & -> & E3 & H3 & (T1 & T2 & T3 & T4 & T5) & D3). rewrite R1 in H3, D3.
      destruct H3 as [(X1 & X2 & X3)|(X & _ & _)]; [|exfalso; apply (enc_response_ne (RsError 3 msg_unknown)); symmetry; apply D3, X].
      assert (Y : c_buf s2 = [] /\ c_ctr s2 = c).
      { rewrite E3 in R2, R3. cbn [c_set_in c_ctr c_buf] in R2, R3. split; congruence. }
      destruct Y as [Y1 Y2]. split; [reflexivity|]. split; [exact Y2|]. split.
      { exists hist. split; cbn [fst snd].
        - split; auto. rewrite S6. exact Hkn.
        - rewrite Y2. eapply Forall_impl; [|exact Hle]. cbn. unfold c. intros; lia.
        - apply T1, U1.
        - split; [rewrite T2; exact U4|exact S1].
        - split; [exact X3|exact S2]. }
      split; [|split; [rewrite S4; symmetry; apply app_nil_r|intros; apply S6]].
      intros b Hb. unfold placed in *. destruct (home b); [exact Hb|]. destruct Hb as (h' & Hb1 & Hb2). exists h'. split; [exact Hb1|]. rewrite S6. exact Hb2.
  Qed.

  Lemma roam_all : forall rs hist cs x sn ss, llinked C ses chost hist cs x sn ss -> c_ctr cs + lenN rs < two64 ->
    Forall (fun q => let '(p, a) := q in lenN p + 50 <= 65507 /\ placed ss a /\
      (home a = true -> (forall i, e_handler SE i true p = HOk (f p)) /\ f p <> [] /\ lenN (f p) + 33 <= 65507 /\ lenN (f p) <= n)) rs ->
    let '(res, (_, (_, ss'))) := roam C CE SE hostof chunk send srv o ses n rs x cs sn ss in
    res = map (fun q => Some (if home (snd q) then RdOk (f (fst q)) true else RdErr (RdRemote 3 msg_unknown))) rs /\
    seen (s_calls ss') = seen (s_calls ss) ++ from_home home (c_ctr cs + 1) rs.
  Proof.
    induction rs as [|[p a] rs IH]; intros hist cs x sn ss Hl Hc Hq; cbn [roam from_home map].
    - split; [reflexivity|]. symmetry. apply app_nil_r.
    - rewrite lenN_cons in Hc. inversion Hq as [|? ? Hq1 Hq2]; subst. destruct Hq1 as (Hp & Ha & Hf).
      pose proof (roam_round p a hist cs x sn ss Hl ltac:(lia) Hp Ha Hf) as G.
      destruct (ucrun C CE chunk send (client_write C o ses p) x cs) as [w [[u net] c1]].
      destruct (udp_exchange _ _ _ _ _ _ _) as [r0 [sn1 s1]].
      destruct (ucrun C CE chunk send (client_read C o ses n) _ c1) as [r [x2 c2]]. destruct G as (-> & G2 & (hist' & G3) & G4 & G5 & _).
      specialize (IH hist' c2 x2 sn1 s1 G3 ltac:(lia)).
      destruct (roam C CE SE hostof chunk send srv o ses n rs x2 c2 sn1 s1) as [l [z [sn2 s2]]].
      destruct IH as [I1 I2].
      { eapply Forall_impl; [|exact Hq2]. intros [p' a'] (A1 & A2 & A3). auto. }
      split; [rewrite I1; reflexivity|]. rewrite I2, G5, G2, <- app_assoc. reflexivity.
  Qed.
End Roaming.

Lemma roaming C CE SE hostof chunk send srv o ses n chost f (home : bytes -> bool) rs hist cs u net sn ss : CryptoLaws C ->
  (forall i, ce_deadline CE i = true) -> (forall i b, lenN b <= 65507 -> send i b = true) -> co_reply o = true ->
  paired C ses chost hist cs ss -> Forall (fun c => c <= c_ctr cs) hist ->
  udp_client u -> n_closed net = false -> n_in net = [] -> n_closed sn = false -> n_in sn = [] -> c_ctr cs + lenN rs < two64 ->
  Forall (fun q => let '(p, a) := q in lenN p + 50 <= 65507 /\
    if home a then hostof a = Some chost /\ (forall i, e_handler SE i true p = HOk (f p)) /\ f p <> [] /\ lenN (f p) + 33 <= 65507 /\ lenN (f p) <= n
    else exists h, hostof a = Some h /\ known C ss h (cs_id ses) = None) rs ->
  let '(res, (_, (_, ss'))) := roam C CE SE hostof chunk send srv o ses n rs (u, net) cs sn ss in
  res = map (fun q => Some (if home (snd q) then RdOk (f (fst q)) true else RdErr (RdRemote 3 msg_unknown))) rs /\
  seen (s_calls ss') = seen (s_calls ss) ++ from_home home (c_ctr cs + 1) rs.
Proof.
  intros L WC Hs Ho P Hle Hu H1 H2 H3 H4 Hc Hq.
  apply (roam_all C CE SE hostof chunk send srv o ses n chost f home L WC Hs Ho rs hist cs (u, net) sn ss); auto; [split; cbn; auto|].
  eapply Forall_impl; [|exact Hq]. intros [p a]. unfold placed. destruct (home a); intros (A1 & A2); split; auto.
  - destruct A2 as (A2 & A3). split; auto.
  - split; [exact A2|discriminate].
Qed.

Lemma moved C CE SE hostof chunk send srv o ses n chost rs hist cs u net sn ss : CryptoLaws C ->
  (forall i, ce_deadline CE i = true) -> (forall i b, lenN b <= 65507 -> send i b = true) -> co_reply o = true ->
  paired C ses chost hist cs ss -> Forall (fun c => c <= c_ctr cs) hist ->
  udp_client u -> n_closed net = false -> n_in net = [] -> n_closed sn = false -> n_in sn = [] -> c_ctr cs + lenN rs < two64 ->
  Forall (fun q => lenN (fst q) + 50 <= 65507 /\ exists h, hostof (snd q) = Some h /\ h <> chost /\ known C ss h (cs_id ses) = None) rs ->
  let '(res, (_, (_, ss'))) := roam C CE SE hostof chunk send srv o ses n rs (u, net) cs sn ss in
  res = map (fun _ => Some (RdErr (RdRemote 3 msg_unknown))) rs /\ seen (s_calls ss') = seen (s_calls ss).
Proof.
  intros L WC Hs Ho P Hle Hu H1 H2 H3 H4 Hc Hq.
  pose proof (roaming C CE SE hostof chunk send srv o ses n chost (fun p => p) (fun _ => false) rs hist cs u net sn ss L WC Hs Ho P Hle Hu H1 H2 H3 H4 Hc) as R.
  destruct (roam _ _ _ _ _ _ _ _ _ _ _ _ _ _) as [res [z [sn' ss']]]. destruct R as [-> R].
  { eapply Forall_impl; [|exact Hq]. intros [p a] (A1 & h & A2 & _ & A3). split; [exact A1|]. exists h. auto. }
  split; [reflexivity|]. rewrite R. replace (from_home _ _ rs) with (@nil (N * bool * bytes)); [apply app_nil_r|].
  generalize (c_ctr cs + 1). clear. induction rs as [|[p a] rs IH]; intro c; [reflexivity|]. cbn. apply IH.
Qed.
