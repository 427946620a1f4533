(** Lemmas for C185: a server over UDP that is restarted. *)
From Verif Require Import Bytes BytesProofs Parser ParserProofs Crypto Kdf Wire WireProofs WireSeq WireExtra Replay SpecReplay
  ReplayProofs Server ServerSeq SpecServer ServerProofs ServerProps ServerProps2 ServerProps3 MultiConn SpecMulti Keys KeysProofs
  Client ClientSeq SpecClient ClientProofs SpecE2E E2EProofs LostProofs SpecSystem DuoTalk Udp SpecUdp UdpProofs UdpThms UdpMore UdpTalk
  SpecUdpLoss UdpLoss SpecUdpDup UdpDup SetupTwiceProofs SetupDialProofs SpecRoam RoamProofs SpecRestart.

Lemma wf_reboot s : wf (reboot s).
Proof. constructor; cbn; try discriminate. intros p. exists []. split; [constructor|reflexivity]. Qed.

Section Restarted.
  Variables (C : Crypto) (CE : cenv) (SE : senv) (hostof : bytes -> option bytes) (chunk : nat -> N) (send : nat -> bytes -> bool)
    (me srv : bytes) (o : copts) (ses : csession) (n : N) (chost : bytes) (f : bytes -> bytes).
  Hypothesis L : CryptoLaws C.
  Hypothesis WC : forall i, ce_deadline CE i = true.
  Hypothesis Hsend : forall i b, lenN b <= 65507 -> send i b = true.
  Hypothesis Ho : co_reply o = true.
  Hypothesis Hh : hostof me = Some chost.

  (** The server knows no session of the client. *)
  Record orphan (cs : cst) (x : udpc * unet) (sn : unet) (ss : sst) : Prop := {
    or_wf : wf ss;
    or_id : length (cs_id ses) = 16%nat;
    or_known : known C ss chost (cs_id ses) = None;
    or_buf : c_buf cs = [];
    or_client : udp_client (fst x);
    or_open : n_closed (snd x) = false /\ n_closed sn = false;
    or_in : n_in (snd x) = [] /\ n_in sn = [] }.

  Lemma orphan_round p cs x sn ss : orphan cs x sn ss -> c_ctr cs + 1 < two64 -> lenN p + 50 <= 65507 ->
    let '(r, ((x2, c2), (sn2, s2))) := roam C CE SE hostof chunk send srv o ses n [(p, me)] x cs sn ss in
    r = [Some (RdErr (RdRemote 3 msg_unknown))] /\ c_ctr c2 = c_ctr cs + 1 /\ orphan c2 x2 sn2 s2 /\ s_calls s2 = s_calls ss /\
    same_sessions C ss s2.
  Proof.
    clear f. intros [Hwf Hid Hun Hbuf Hcl [Hop Hops] [Hin Hins]] Hc Hp. destruct x as [u0 net0]. cbn [fst snd] in *. cbn [roam].
    destruct (client_gcm_some C L (cs_secret ses)) as (key & K).
    destruct (lossy_write C CE chunk send o ses L WC Hsend Ho p u0 net0 cs key Hcl Hop Hid K Hc Hp) as (w & u & net & c1 & -> & U1 & U2 & U3 & U4 & U5 & U6 & U7 & U8).
    cbn [snd]. rewrite (left_since_one _ _ _ _ U5). cbn [arrive_all fold_left]. rewrite Hin in U3. rewrite Hbuf in U8. set (c := c_ctr cs + 1) in *.
    assert (Hrq : request_ok (RqProcess (cs_id ses) c (gcm_seal C key (gcm_nonce dir_c2s c) p) true)).
    { split; [exact Hid|]. split; [exact Hc|]. rewrite (gcm_seal_len _ L). unfold max_message_size. lia. }
    destruct (away_serve C SE hostof chunk send Hsend me chost (cs_id ses) c _ ss sn Hh Hrq Hwf Hun Hops Hins) as (r & sn1 & s1 & RS & S1 & S2 & S3 & S4 & S5 & S6).
    rewrite RS, S3. change (arrive_all srv [err3] net) with (arrive srv err3 net).
    destruct (any_error_run_last C (eof_env CE) o ses n (c_set_in c1 err3) 3 msg_unknown [] (eof_works CE WC) U8 err3_ok)
      as (s3 & R & R1 & R2 & R3 & R4 & R5); [symmetry; apply app_nil_r|].
    assert (Hh1 : holds u (arrive srv err3 net) err3 []) by (right; split; [exact U2|]; split; [exact U4|]; exists srv; cbn; rewrite U3; reflexivity).
    pose proof (ucrun_flat C CE chunk send _ _ (nowrite_read C o ses n) u (arrive srv err3 net) c1 _ _ Hh1) as F. rewrite R in F.
    destruct F as (u2 & n2 & s2 & -> & E3 & H3 & (T1 & T2 & T3 & T4 & T5) & D3). rewrite R1 in H3, D3.
    destruct H3 as [(X1 & X2 & X3)|(X & _ & _)]; [|exfalso; apply (enc_response_ne (RsError 3 msg_unknown)); symmetry; apply D3, X].
    assert (Y : c_buf s2 = [] /\ c_ctr s2 = c).
    { rewrite E3 in R2, R3. cbn [c_set_in c_ctr c_buf] in R2, R3. split; congruence. }
    destruct Y as [Y1 Y2]. split; [reflexivity|]. split; [exact Y2|]. split; [|split; [exact S4|exact S6]].
    split; cbn [fst snd].
    - exact S5.
    - exact Hid.
    - rewrite S6. exact Hun.
    - exact Y1.
    - apply T1, U1.
    - split; [rewrite T2; exact U4|exact S1].
    - split; [exact X3|exact S2].
  Qed.

  Lemma orphan_reboot cs x sn ss sn' : orphan cs x sn ss -> orphan cs x (reopen sn') (reboot ss).
  Proof. intros [H1 H2 H3 H4 H5 H6 H7]. split; [apply wf_reboot|exact H2|reflexivity|exact H4|exact H5|cbn; tauto|cbn; tauto]. Qed.

  Lemma orphan_all : forall rs cs x sn ss, orphan cs x sn ss -> c_ctr cs + lenN (said rs) < two64 ->
    Forall (fun p => lenN p + 50 <= 65507) (said rs) ->
    let '(res, ((x2, c2), (sn2, s2))) := restarts C CE SE hostof chunk send me srv o ses n rs x cs sn ss in
    res = map (fun _ => Some (RdErr (RdRemote 3 msg_unknown))) (said rs) /\ orphan c2 x2 sn2 s2 /\ s_calls s2 = s_calls ss.
  Proof.
    induction rs as [|[p|] rs IH]; intros cs x sn ss Hl Hc Hq; cbn [restarts said map] in *.
    - auto.
    - rewrite lenN_cons in Hc. inversion Hq as [|? ? Hp Hq']; subst.
      pose proof (orphan_round p cs x sn ss Hl ltac:(lia) Hp) as G. destruct (roam _ _ _ _ _ _ _ _ _ _ _ _ _ _) as [r [[x2 c2] [sn2 s2]]].
      destruct G as (-> & G2 & G3 & G4 & _). specialize (IH c2 x2 sn2 s2 G3 ltac:(lia) Hq').
      destruct (restarts _ _ _ _ _ _ _ _ _ _ _ _ _ _ _) as [l [[x3 c3] [sn3 s3]]]. destruct IH as (-> & I2 & I3). split; [reflexivity|]. split; [exact I2|congruence].
    - specialize (IH cs x (reopen sn) (reboot ss) (orphan_reboot _ _ _ _ sn Hl) Hc Hq).
      destruct (restarts _ _ _ _ _ _ _ _ _ _ _ _ _ _ _) as [l [[x3 c3] [sn3 s3]]]. exact IH.
  Qed.

  Lemma paired_round p hist cs x sn ss : llinked C ses chost hist cs x sn ss -> c_ctr cs + 1 < two64 -> lenN p + 50 <= 65507 ->
    (forall i, e_handler SE i true p = HOk (f p)) -> f p <> [] -> lenN (f p) + 33 <= 65507 -> lenN (f p) <= n ->
    let '(r, ((x2, c2), (sn2, s2))) := roam C CE SE hostof chunk send srv o ses n [(p, me)] x cs sn ss in
    r = [Some (RdOk (f p) true)] /\ c_ctr c2 = c_ctr cs + 1 /\ (exists hist', llinked C ses chost hist' c2 x2 sn2 s2) /\
    seen (s_calls s2) = seen (s_calls ss) ++ [(c_ctr cs + 1, true, p)] /\
    forall h i, session_key C h i <> session_key C chost (cs_id ses) -> known C s2 h i = known C ss h i.
  Proof.
    intros Hl Hc Hp F1 F2 F3 F4.
    pose proof (roam_round C CE SE hostof chunk send srv o ses n chost f (fun _ => true) L WC Hsend Ho p me hist cs x sn ss Hl Hc Hp Hh (fun _ => conj F1 (conj F2 (conj F3 F4)))) as G.
    cbn [roam]. destruct (ucrun C CE chunk send (client_write C o ses p) x cs) as [w [[u net] c1]].
    destruct (udp_exchange _ _ _ _ _ _ _) as [r0 [sn1 s1]].
    destruct (ucrun C CE chunk send (client_read C o ses n) _ c1) as [r [x2 c2]]. destruct G as (-> & G2 & G3 & _ & G5). auto.
  Qed.

  (** The end state is good in either case. *)
  Definition at_rest (sn : unet) (ss : sst) : Prop := wf ss /\ n_closed sn = false /\ n_in sn = [].

  Lemma restarts_all : forall rs hist cs x sn ss, llinked C ses chost hist cs x sn ss -> c_ctr cs + lenN (said rs) < two64 ->
    Forall (fun p => lenN p + 50 <= 65507) (said rs) ->
    Forall (fun p => (forall i, e_handler SE i true p = HOk (f p)) /\ f p <> [] /\ lenN (f p) + 33 <= 65507 /\ lenN (f p) <= n) (before rs) ->
    let '(res, (_, (sn2, s2))) := restarts C CE SE hostof chunk send me srv o ses n rs x cs sn ss in
    res = map (fun p => Some (RdOk (f p) true)) (before rs) ++ map (fun _ => Some (RdErr (RdRemote 3 msg_unknown))) (after rs) /\
    seen (s_calls s2) = seen (s_calls ss) ++ numbered (c_ctr cs + 1) true (before rs) /\ at_rest sn2 s2.
  Proof.
    induction rs as [|[p|] rs IH]; intros hist cs x sn ss Hl Hc Hq Hf; cbn [restarts said before after map app numbered] in *.
    - split; [reflexivity|]. split; [symmetry; apply app_nil_r|]. destruct Hl as [[Hwf _ _ _ _] _ _ [_ Ho2] [_ Hi2]]. split; auto.
    - rewrite lenN_cons in Hc. inversion Hq as [|? ? Hp Hq']; subst. inversion Hf as [|? ? Hf1 Hf']; subst. destruct Hf1 as (F1 & F2 & F3 & F4).
      pose proof (paired_round p hist cs x sn ss Hl ltac:(lia) Hp F1 F2 F3 F4) as G. destruct (roam _ _ _ _ _ _ _ _ _ _ _ _ _ _) as [r [[x2 c2] [sn2 s2]]].
      destruct G as (-> & G2 & (hist' & G3) & G4 & _). specialize (IH hist' c2 x2 sn2 s2 G3 ltac:(lia) Hq' Hf').
      destruct (restarts _ _ _ _ _ _ _ _ _ _ _ _ _ _ _) as [l [z [sn3 s3]]]. destruct IH as (-> & I2 & I3). split; [reflexivity|]. split; [|exact I3].
      rewrite I2, G4, G2, <- app_assoc. reflexivity.
    - destruct Hl as [[Hwf Hid Hkn Hhist Hbuf] Hle Hcl [Hop Hops] [Hin Hins]].
      assert (O : orphan cs x (reopen sn) (reboot ss)) by (split; [apply wf_reboot|exact Hid|reflexivity|exact Hbuf|exact Hcl|cbn; auto|cbn; auto]).
      pose proof (orphan_all rs cs x _ _ O Hc Hq) as G.
      destruct (restarts _ _ _ _ _ _ _ _ _ _ _ _ _ _ _) as [l [[x3 c3] [sn3 s3]]]. destruct G as (-> & G2 & G3). split; [reflexivity|].
      split; [rewrite G3; cbn; symmetry; apply app_nil_r|]. destruct G2 as [O1 _ _ _ _ [_ O2] [_ O3]]. split; auto.
  Qed.
End Restarted.

Lemma restarted C CE SE hostof chunk send me srv o ses n chost f rs hist cs u net sn ss : CryptoLaws C ->
  (forall i, ce_deadline CE i = true) -> (forall i b, lenN b <= 65507 -> send i b = true) -> co_reply o = true -> hostof me = Some chost ->
  paired C ses chost hist cs ss -> Forall (fun c => c <= c_ctr cs) hist ->
  udp_client u -> n_closed net = false -> n_in net = [] -> n_closed sn = false -> n_in sn = [] ->
  c_ctr cs + lenN (said rs) < two64 -> Forall (fun p => lenN p + 50 <= 65507) (said rs) ->
  Forall (fun p => (forall i, e_handler SE i true p = HOk (f p)) /\ f p <> [] /\ lenN (f p) + 33 <= 65507 /\ lenN (f p) <= n) (before rs) ->
  let '(res, (_, (_, ss'))) := restarts C CE SE hostof chunk send me srv o ses n rs (u, net) cs sn ss in
  res = map (fun p => Some (RdOk (f p) true)) (before rs) ++ map (fun _ => Some (RdErr (RdRemote 3 msg_unknown))) (after rs) /\
  seen (s_calls ss') = seen (s_calls ss) ++ numbered (c_ctr cs + 1) true (before rs).
Proof.
  intros L WC Hs Ho Hh P Hle Hu H1 H2 H3 H4 Hc Hq Hf.
  pose proof (restarts_all C CE SE hostof chunk send me srv o ses n chost f L WC Hs Ho Hh rs hist cs (u, net) sn ss) as R.
  destruct (restarts _ _ _ _ _ _ _ _ _ _ _ _ _ _ _) as [l [z [sn3 s3]]]. destruct R as (R1 & R2 & _); auto. split; cbn; auto.
Qed.

Lemma dial_once C CE SE hostof chunk send me srv chost0 chost host csk rnd ssk : CryptoLaws C -> undisturbed C CE SE chost0 host csk rnd ssk ->
  (forall i b, lenN b <= 65507 -> send i b = true) -> hostof me = Some chost ->
  (forall i m sig, e_sign SE i SHA512 m = KOk sig -> lenN sig + 54 <= 65507) ->
  forall ss sn, wf ss -> n_closed sn = false -> n_in sn = [] ->
  let q := enc_request (RqSetup (uuid_of rnd) (x_pub C csk)) in
  let '(out, (sn1, ss1)) := serve_each C SE hostof chunk send me [q] sn ss in
  s_calls ss1 = s_calls ss /\ n_closed sn1 = false /\ n_in sn1 = [] /\ length out = 1%nat /\
  (forall h i, length i = 16%nat -> session_key C h i <> session_key C chost (uuid_of rnd) -> known C ss1 h i = known C ss h i) /\
  forall u net cs, udp_client u -> n_closed net = false -> n_in net = map (pair srv) out -> c_buf cs = [] ->
  let '(h, ((u1, net1), cs1)) := ucrun C CE chunk send (handshake C (Some host)) (u, net) cs in
  left_since net net1 = [q] /\ c_ctr cs1 = c_ctr cs /\ exists ses, h = Some (inr ses) /\ cs_id ses = uuid_of rnd /\ llinked C ses chost [] cs1 (u1, net1) sn1 ss1.
Proof.
  intros L U Hsend Hh Hsg ss sn Hwf Hc Hin. cbv zeta. set (id := uuid_of rnd).
  destruct (u_rand _ _ _ _ _ _ _ _ U) as [Hr Hrl].
  assert (Hid : length id = 16%nat) by (apply uuid_length, Hrl).
  assert (Hok : request_ok (RqSetup id (x_pub C csk))) by (split; [exact Hid|apply (x_pub_len _ L)]).
  assert (Hsig : forall i m, exists sig, e_sign SE i SHA512 m = KOk sig /\ lenN sig + 54 <= 65507).
  { intros i m. destruct (u_sign _ _ _ _ _ _ _ _ U i m) as (r & sig & E & _). eauto. }
  destruct (serve_setup C SE hostof chunk send me chost L Hsend Hh id _ ss sn Hok Hwf Hc Hin (u_sgen _ _ _ _ _ _ _ _ U) (u_store _ _ _ _ _ _ _ _ U) Hsig)
    as (r & sn1 & s1 & i0 & sk & shared & sig & E & S1 & S2 & S3 & (G0 & j0 & Es) & S5 & S6 & S7 & S8 & S9).
  cbn [serve_each]. rewrite E, S3. cbn [app]. split; [exact S6|]. split; [exact S1|]. split; [exact S2|]. split; [reflexivity|]. split.
  { intros h i Hi Hk. destruct (S9 h i Hi) as [X|(_ & X)]; [intro Y; apply Hk; injection Y as -> ->; reflexivity|exact X|]. exfalso. apply Hk. unfold session_key. rewrite X. reflexivity. }
  intros u net cs Hu Hcn Hni Hb.
  destruct (u_sign _ _ _ _ _ _ _ _ U j0 (be_enc 4 44 ++ pkix_x25519 (x_pub C csk) ++ be_enc 4 44 ++ pkix_x25519 (x_pub C sk) ++ id))
    as (srnd & sig' & Es' & Esg & Hne & Hlen).
  rewrite Es in Es'. injection Es' as <-. destruct (u_fetch _ _ _ _ _ _ _ _ U) as (alg & pk & Fk & Fc).
  assert (Tr : be_enc 4 44 ++ pkix_x25519 (x_pub C csk) ++ be_enc 4 44 ++ pkix_x25519 (x_pub C sk) ++ id = setup_transcript (x_pub C csk) (x_pub C sk) id).
  { unfold setup_transcript, pkix_x25519. cbv zeta. unfold lenN. rewrite !app_length, !(x_pub_len _ L). reflexivity. }
  rewrite Tr in Esg. pose proof (sign_verify C L _ _ _ _ _ _ _ Esg Fk) as V.
  assert (Dx : x_dh C csk (x_pub C sk) = Some shared) by (rewrite (x_dh_comm _ L); exact S5).
  destruct (dial_first C CE chunk send host pk rnd csk (x_pub C sk) sig shared srv [] u net cs) as (u1 & net1 & cs1 & R & A1 & A2 & A3 & A4 & A5 & A6); auto.
  { apply (u_client _ _ _ _ _ _ _ _ U). }
  { apply (u_gen _ _ _ _ _ _ _ _ U). }
  { apply (x_pub_len _ L). }
  { repeat split; auto. apply (x_pub_len _ L). }
  rewrite R. split; [exact (left_since_out _ _ _ _ A4)|]. split; [exact A6|]. eexists. split; [reflexivity|]. split; [reflexivity|].
  split; cbn [fst snd]; auto. split; cbn [cs_id cs_secret]; auto; try constructor; congruence.
Qed.

Lemma dial_again C CE SE hostof chunk send me srv o ses n chost f rs hist cs u net sn ss : CryptoLaws C ->
  (forall i, ce_deadline CE i = true) -> (forall i b, lenN b <= 65507 -> send i b = true) -> co_reply o = true -> hostof me = Some chost ->
  paired C ses chost hist cs ss -> Forall (fun c => c <= c_ctr cs) hist ->
  udp_client u -> n_closed net = false -> n_in net = [] -> n_closed sn = false -> n_in sn = [] ->
  c_ctr cs + lenN (said rs) < two64 -> Forall (fun p => lenN p + 50 <= 65507) (said rs) ->
  Forall (fun p => (forall i, e_handler SE i true p = HOk (f p)) /\ f p <> [] /\ lenN (f p) + 33 <= 65507 /\ lenN (f p) <= n) (before rs) ->
  let '(_, (_, (sn1, ss1))) := restarts C CE SE hostof chunk send me srv o ses n rs (u, net) cs sn ss in
  forall CE2 me2 chost2 host csk rnd ssk, undisturbed C CE2 SE chost2 host csk rnd ssk -> hostof me2 = Some chost2 ->
  (forall i m sig, e_sign SE i SHA512 m = KOk sig -> lenN sig + 54 <= 65507) ->
  let q := enc_request (RqSetup (uuid_of rnd) (x_pub C csk)) in
  let '(out, (sn2, ss2)) := serve_each C SE hostof chunk send me2 [q] sn1 ss1 in
  forall u2 net2 cs2, udp_client u2 -> n_closed net2 = false -> n_in net2 = map (pair srv) out -> c_buf cs2 = [] ->
  let '(h, ((u3, net3), cs3)) := ucrun C CE2 chunk send (handshake C (Some host)) (u2, net2) cs2 in
  left_since net2 net3 = [q] /\ exists ses2, h = Some (inr ses2) /\
  forall ps, c_ctr cs2 + lenN ps < two64 -> Forall (fun p => lenN p + 50 <= 65507) ps ->
  Forall (fun p => (forall i, e_handler SE i true p = HOk (f p)) /\ f p <> [] /\ lenN (f p) + 33 <= 65507 /\ lenN (f p) <= n) ps ->
  let '(res, (_, (_, ss'))) := restarts C CE2 SE hostof chunk send me2 srv o ses2 n (map Some ps) (u3, net3) cs3 sn2 ss2 in
  res = map (fun p => Some (RdOk (f p) true)) ps /\ seen (s_calls ss') = seen (s_calls ss1) ++ numbered (c_ctr cs2 + 1) true ps.
Proof.
  intros L WC Hs Ho Hh P Hle Hu H1 H2 H3 H4 Hc Hq Hf.
  pose proof (restarts_all C CE SE hostof chunk send me srv o ses n chost f L WC Hs Ho Hh rs hist cs (u, net) sn ss) as R.
  destruct (restarts _ _ _ _ _ _ _ _ _ _ _ _ _ _ _) as [l [z [sn1 s1]]].
  destruct R as (_ & _ & W1 & W2 & W3); auto; [split; cbn; auto|].
  intros CE2 me2 chost2 host csk rnd ssk U Hh2 Hsg. cbv zeta.
  pose proof (dial_once C CE2 SE hostof chunk send me2 srv chost2 chost2 host csk rnd ssk L U Hs Hh2 Hsg s1 sn1 W1 W2 W3) as D. cbv zeta in D.
  destruct (serve_each _ _ _ _ _ _ _ _ _) as [out [sn2 s2]]. destruct D as (D1 & _ & _ & _ & _ & D).
  intros u2 net2 cs2 Hu2 Hc2 Hi2 Hb2. specialize (D u2 net2 cs2 Hu2 Hc2 Hi2 Hb2).
  destruct (ucrun C CE2 chunk send (handshake C (Some host)) (u2, net2) cs2) as [h [[u3 net3] cs3]].
  destruct D as (Dl & Dc & ses2 & -> & _ & Dp). split; [exact Dl|]. exists ses2. split; [reflexivity|].
  intros ps Hlt Hp Hfp.
  assert (X : before (map Some ps) = ps /\ said (map Some ps) = ps /\ after (map Some ps) = []).
  { clear. induction ps as [|p ps (I1 & I2 & I3)]; cbn; [auto|]. rewrite I1, I2, I3. auto. }
  destruct X as (X1 & X2 & X3).
  pose proof (restarts_all C CE2 SE hostof chunk send me2 srv o ses2 n chost2 f L (proj2 (u_client _ _ _ _ _ _ _ _ U)) Hs Ho Hh2 (map Some ps) [] cs3 (u3, net3) sn2 s2 Dp) as R.
  rewrite X1, X2, X3 in R. destruct (restarts _ _ _ _ _ _ _ _ _ _ _ _ _ _ _) as [l2 [z2 [sn4 s4]]].
  destruct R as (R1 & R2 & _); auto; [rewrite Dc; exact Hlt|]. split; [rewrite R1; apply app_nil_r|]. rewrite R2, Dc, D1. reflexivity.
Qed.
