(** A lost datagram costs its own exchange. *)
From Verif Require Import Bytes BytesProofs Parser ParserProofs Crypto Kdf Wire WireProofs WireSeq WireExtra Replay SpecReplay
  ReplayProofs Server ServerSeq SpecServer ServerProofs ServerProps ServerProps2 ServerProps3 MultiConn SpecMulti Keys KeysProofs
  Client ClientSeq SpecClient ClientProofs SpecE2E E2EProofs Udp SpecUdp UdpProofs UdpThms UdpMore UdpTalk SpecUdpLoss.

Lemma left_since_one n n' d b : n_out n' = n_out n ++ [(d, b)] -> left_since n n' = [b].
Proof. intros H. unfold left_since. rewrite H, skipn_app_exact. reflexivity. Qed.

(** Reads of a socket without a datagram. *)
Lemma udp_read_none C E chunk send o ses n u net s : (forall i, ce_deadline E i = true) -> u_read u = false -> n_in net = [] -> c_buf s = [] ->
  exists s', ucrun C E chunk send (client_read C o ses n) (u, net) s = (Some (RdErr (RdParse EIO)), ((u, net), s')) /\
    c_buf s' = [] /\ c_last s' = c_last s /\ c_ctr s' = c_ctr s.
Proof.
  intros Hd Hr Hi Hb. unfold client_read. set (G := fun ok : bool => _).
  assert (HG : forall s, c_buf s = [] -> ucrun C E chunk send (G true) (u, net) s = (Some (RdErr (RdParse EIO)), ((u, net), s))).
  { intros s0 Hb0. unfold G. cbn [negb cbind cdo ucrun ucexec cexec fst snd]. rewrite Hb0. change (0 <? lenN []) with false. cbv iota.
    unfold parse_resp_common, pcopy1. cbn [pbind clift cbind ucrun ucexec].
    assert (X : udp_copy chunk 1 (u, net) = (([], Some EIO), (u, net))).
    { unfold udp_copy, udp_fuel. rewrite Hi. cbn [udp_take]. change (1 =? 0) with false. cbv iota.
      unfold udp_read1, udp_receive. cbn [fst]. rewrite Hr, Hi. destruct (n_closed net); reflexivity. }
    rewrite X. reflexivity. }
  destruct (co_rto o); cbn [cbind cdo ucrun ucexec cexec].
  - rewrite Hd. exists (c_tick s). split; [apply HG, Hb|]. auto.
  - exists s. split; [apply HG, Hb|]. auto.
Qed.
Lemma udp_reads_none C E chunk send o ses n : (forall i, ce_deadline E i = true) ->
  forall k u net s, u_read u = false -> n_in net = [] -> c_buf s = [] ->
  exists rs s', udp_reads C E chunk send o ses n k (u, net) s = (rs, ((u, net), s')) /\ length rs = k /\ Forall failed rs /\
    c_buf s' = [] /\ c_last s' = c_last s /\ c_ctr s' = c_ctr s.
Proof.
  intros Hd. induction k as [|k IH]; intros u net s Hr Hi Hb; cbn [udp_reads]; [exists [], s; auto 8|].
  destruct (udp_read_none C E chunk send o ses n u net s Hd Hr Hi Hb) as (s1 & -> & B1 & L1 & C1).
  destruct (IH u net s1 Hr Hi B1) as (rs & s2 & -> & Hl & Hf & B2 & L2 & C2).
  do 2 eexists. split; [reflexivity|]. split; [cbn; congruence|]. split; [constructor; [eexists; reflexivity|exact Hf]|].
  split; [exact B2|]. split; congruence.
Qed.
Lemma udp_reads_len C E chunk send o ses n : forall k x s, length (fst (udp_reads C E chunk send o ses n k x s)) = k.
Proof.
  induction k as [|k IH]; intros x s; cbn [udp_reads]; [reflexivity|].
  destruct (ucrun C E chunk send (client_read C o ses n) x s) as [r [x1 s1]]. specialize (IH x1 s1).
  destruct (udp_reads C E chunk send o ses n k x1 s1) as [rs z]. cbn in *. congruence.
Qed.

Lemma write_sends C CE chunk send o ses : CryptoLaws C -> (forall i, ce_deadline CE i = true) ->
  (forall i b, lenN b <= 65507 -> send i b = true) -> forall p u net s key, udp_client u -> n_closed net = false -> length (cs_id ses) = 16%nat ->
  client_gcm C (cs_secret ses) = Some key -> c_ctr s + 1 < two64 -> lenN p + 50 <= 65507 ->
  let c := c_ctr s + 1 in
  let q := enc_request (RqProcess (cs_id ses) c (gcm_seal C key (gcm_nonce dir_c2s c) p) (co_reply o)) in
  exists l u' n' s', ucrun C CE chunk send (client_write C o ses p) (u, net) s = (Some (WrConn l false), ((u', n'), s')) /\
    udp_client u' /\ u_read u' = false /\ n_in n' = n_in net /\ n_closed n' = false /\ n_out n' = n_out net ++ [(None, q)] /\
    c_ctr s' = c /\ c_last s' = c /\ c_buf s' = c_buf s.
Proof.
  intros L WC Hsend p u net s key Hu Hc Hid K Hlt Hp c q. unfold client_write. set (F := fun ok : bool => _).
  assert (D : exists s1, ucrun C CE chunk send (cbind (if co_wto o then cdo CDeadline else CRet true) F) (u, net) s =
      ucrun C CE chunk send (F true) (u, net) s1 /\ c_ctr s1 = c_ctr s /\ c_buf s1 = c_buf s).
  { destruct (co_wto o).
    - exists (c_tick s). cbn [cbind cdo ucrun ucexec cexec]. rewrite WC. auto.
    - exists s. auto. }
  destruct D as (s1 & -> & D1 & D2). unfold F. cbn [negb]. rewrite K. cbn [cbind cdo ucrun ucexec cexec]. rewrite D1.
  fold c. rewrite N.mod_small by exact Hlt. replace (c =? 0) with false by (symmetry; apply N.eqb_neq; unfold c; lia).
  cbn [cbind cdo ucrun ucexec cexec].
  change (enc_process_req _) with q. unfold udp_write, net_send. destruct Hu as [H1 H2]. rewrite H1, Hc.
  rewrite Hsend by (unfold q; rewrite len_process_req by exact Hid; rewrite (gcm_seal_len _ L); lia).
  cbn [andb negb ucrun fst snd]. do 4 eexists. split; [reflexivity|]. unfold udp_client. cbn. auto 12.
Qed.

Section Loss.
  Variables (C : Crypto) (CE : cenv) (SE : senv) (hostof : bytes -> option bytes) (chunk : nat -> N) (send : nat -> bytes -> bool)
    (me srv : bytes) (o : copts) (ses : csession) (n : N) (chost : bytes) (f : bytes -> bytes).
  Hypothesis L : CryptoLaws C.
  Hypothesis WC : forall i, ce_deadline CE i = true.
  Hypothesis Hsend : forall i b, lenN b <= 65507 -> send i b = true.
  Hypothesis Hh : hostof me = Some chost.
  Hypothesis Ho : co_reply o = true.

  Record llinked (hist : list N) (cs : cst) (x : udpc * unet) (sn : unet) (ss : sst) : Prop := {
    ll_paired : paired C ses chost hist cs ss;
    ll_hist : Forall (fun c => c <= c_ctr cs) hist;
    ll_client : udp_client (fst x);
    ll_open : n_closed (snd x) = false /\ n_closed sn = false;
    ll_in : n_in (snd x) = [] /\ n_in sn = [] }.

  Lemma lossy_write p u net s key : udp_client u -> n_closed net = false -> length (cs_id ses) = 16%nat ->
    client_gcm C (cs_secret ses) = Some key -> c_ctr s + 1 < two64 -> lenN p + 50 <= 65507 ->
    let c := c_ctr s + 1 in
    let q := enc_request (RqProcess (cs_id ses) c (gcm_seal C key (gcm_nonce dir_c2s c) p) true) in
    exists w u' n' s', ucrun C CE chunk send (client_write C o ses p) (u, net) s = (w, ((u', n'), s')) /\
      udp_client u' /\ u_read u' = false /\ n_in n' = n_in net /\ n_closed n' = false /\ n_out n' = n_out net ++ [(None, q)] /\
      c_ctr s' = c /\ c_last s' = c /\ c_buf s' = c_buf s.
  Proof.
    intros Hu Hc Hid K Hlt Hp c q.
    destruct (write_sends C CE chunk send o ses L WC Hsend p u net s key Hu Hc Hid K Hlt Hp) as (l & u' & n' & s' & H & H0).
    rewrite Ho in H0. do 4 eexists. split; [exact H|exact H0].
  Qed.

  Lemma lossy_serve_frame p hist cs ss sn key : paired C ses chost hist cs ss -> Forall (fun c => c <= c_ctr cs) hist ->
    n_closed sn = false -> n_in sn = [] -> client_gcm C (cs_secret ses) = Some key -> c_ctr cs + 1 < two64 -> lenN p + 50 <= 65507 ->
    (forall i, e_handler SE i true p = HOk (f p)) -> lenN (f p) + 33 <= 65507 ->
    let c := c_ctr cs + 1 in
    let q := enc_request (RqProcess (cs_id ses) c (gcm_seal C key (gcm_nonce dir_c2s c) p) true) in
    exists r sn' ss', udp_exchange C SE hostof chunk send (arrive me q sn) ss = (r, (sn', ss')) /\
      n_closed sn' = false /\ n_in sn' = [] /\
      left_since sn sn' = [enc_response (RsProcess c (gcm_seal C key (gcm_nonce dir_s2c c) (f p)))] /\
      seen (s_calls ss') = seen (s_calls ss) ++ [(c, true, p)] /\ wf ss' /\
      known C ss' chost (cs_id ses) = Some {| ses_secret := cs_secret ses; ses_win := snd (checks new_window (hist ++ [c])) |} /\
      forall h i, session_key C h i <> session_key C chost (cs_id ses) -> known C ss' h i = known C ss h i.
  Proof.
    intros [Hwf Hid Hkn Hhist Hbuf] Hle Hop Hin K Hc Hp Hf Hlo c q.
    assert (Hnr : ~ refused_after hist c) by (apply next_not_refused, Hle).
    destruct (exchange_flat C SE hostof chunk send (arrive me q sn) ss me q [] Hop ltac:(cbn; rewrite Hin; reflexivity))
      as (r & s1 & l & ok & sn' & ss' & -> & R & Hs1 & Hsent & Hfull & Hin' & Hcl' & Hout).
    set (E := dgram_env SE (hostof me)) in *. set (s0 := set_in ss q) in *.
    assert (WS : writes_all E) by (intros i b; cbn; split; [lia|reflexivity]).
    set (ct := gcm_seal C key (gcm_nonce dir_c2s c) p) in *.
    assert (Hin0 : s_in s0 = q ++ []) by (rewrite app_nil_r; reflexivity).
    assert (Hok : request_ok (RqProcess (cs_id ses) c ct true)).
    { split; [exact Hid|]. split; [exact Hc|]. unfold ct. rewrite (gcm_seal_len _ L). unfold max_message_size. lia. }
    assert (Hwf0 : wf s0) by (apply (wf_same ss); auto).
    set (E0 := shift (s_step s0) E).
    assert (Q0 : e_quit E0 (s_step s0) = false) by (cbn [E0 shift e_quit]; rewrite Nat.eqb_refl; reflexivity).
    assert (W0 : writes_all E0) by apply shift_writes, WS.
    pose proof (process_accepted C E0 s0 chost (cs_id ses) ct [] c true Hok Hin0 Q0 Hh) as PA.
    specialize (PA _ hist Hkn Hhist eq_refl Hwf0 Hnr key (eq_trans (eq_sym (client_server_gcm C _)) K) p (gcm_open_seal _ L _ _ _)).
    pose proof (WF_conn C E0 s0 Hwf0) as WF'.
    unfold E0 in PA, WF'. rewrite one_request_conn in PA, WF'. fold E0 in PA, WF'.
    rewrite R in PA, WF'. cbn [fst snd] in PA, WF'.
    destruct PA as ((ptr & Pc) & [Pk Pother] & Pin & i & Pr).
    change (e_handler E0 i true p) with (e_handler SE (pred i) true p) in Pr. rewrite Hf in Pr. cbv zeta in Pr.
    destruct Pr as [_ Pr]. destruct (Pr W0) as [(kk & Prs) ->].
    set (rc := gcm_seal C key (gcm_nonce dir_s2c c) (f p)) in *.
    set (out := enc_response (RsProcess c rc)) in *.
    change (s_sent (tick s1)) with (s_sent s1) in Prs. change (s_sent s0) with (s_sent ss) in Prs.
    rewrite Prs in Hsent. apply app_inv_head in Hsent. subst l. inversion Hfull as [|? ? F1 _]. cbn [fst snd] in F1. subst kk.
    pose proof (UdpThms.wire_one out (lenN out) eq_refl) as Ww. rewrite Ww in Hout.
    destruct Hout as [(X & _)|(_ & Hok' & Hout)]; [exfalso; revert X; apply enc_response_ne|].
    rewrite Hsend in Hok' by (unfold out; rewrite len_process_resp; unfold rc; rewrite (gcm_seal_len _ L); lia). subst ok.
    exists (Some (Some true, true)), sn', ss'. split; [reflexivity|]. split; [exact Hcl'|]. split; [exact Hin'|]. split; [exact (left_since_one _ _ _ _ Hout)|].
    change (s_calls (tick s1)) with (s_calls s1) in Pc. change (s_calls s0) with (s_calls ss) in Pc.
    assert (X : s_calls ss' = s_calls s1) by (rewrite <- Hs1; reflexivity). rewrite X, Pc. split.
    { unfold seen. rewrite map_app. reflexivity. }
    split; [apply (wf_same (tick s1)); auto; rewrite <- Hs1; reflexivity|].
    rewrite <- Hs1 in Pk, Pother. split; [exact Pk|exact Pother].
  Qed.

  Lemma lossy_serve p hist cs ss sn key : paired C ses chost hist cs ss -> Forall (fun c => c <= c_ctr cs) hist ->
    n_closed sn = false -> n_in sn = [] -> client_gcm C (cs_secret ses) = Some key -> c_ctr cs + 1 < two64 -> lenN p + 50 <= 65507 ->
    (forall i, e_handler SE i true p = HOk (f p)) -> lenN (f p) + 33 <= 65507 ->
    let c := c_ctr cs + 1 in
    let q := enc_request (RqProcess (cs_id ses) c (gcm_seal C key (gcm_nonce dir_c2s c) p) true) in
    exists r sn' ss', udp_exchange C SE hostof chunk send (arrive me q sn) ss = (r, (sn', ss')) /\
      n_closed sn' = false /\ n_in sn' = [] /\
      left_since sn sn' = [enc_response (RsProcess c (gcm_seal C key (gcm_nonce dir_s2c c) (f p)))] /\
      seen (s_calls ss') = seen (s_calls ss) ++ [(c, true, p)] /\ wf ss' /\
      known C ss' chost (cs_id ses) = Some {| ses_secret := cs_secret ses; ses_win := snd (checks new_window (hist ++ [c])) |}.
  Proof.
    intros P Hle Hop Hin K Hc Hp Hf Hlo c q.
    destruct (lossy_serve_frame p hist cs ss sn key P Hle Hop Hin K Hc Hp Hf Hlo) as (r & sn' & ss' & A1 & A2 & A3 & A4 & A5 & A6 & A7 & _).
    exists r, sn', ss'. auto 12.
  Qed.

  Lemma lossy_round p ft k hist cs x sn ss : llinked hist cs x sn ss -> c_ctr cs + 1 < two64 -> lenN p + 50 <= 65507 ->
    (forall i, e_handler SE i true p = HOk (f p)) -> f p <> [] /\ lenN (f p) + 33 <= 65507 /\ lenN (f p) <= n ->
    let '(_, ((u, net), c1)) := ucrun C CE chunk send (client_write C o ses p) x cs in
    let '(ds, (sn1, s1)) := serve_lossy C SE hostof chunk send me ft (left_since (snd x) net) sn ss in
    let '(r, (x2, c2)) := udp_reads C CE chunk send o ses n (S k) (u, arrive_all srv ds net) c1 in
    round_good f (p, ft, k) r /\ c_ctr c2 = c_ctr cs + 1 /\ (exists hist', llinked hist' c2 x2 sn1 s1) /\
    seen (s_calls s1) = seen (s_calls ss) ++ heard (c_ctr cs + 1) [(p, ft, k)].
  Proof.
    intros [P Hle Hcl [Hop Hops] [Hin Hins]] Hc Hp Hf (Hne & Hlo & Hln).
    destruct (client_gcm_some C L (cs_secret ses)) as (key & K). destruct x as [u0 net0]. cbn [fst snd] in *.
    pose proof P as [Hwf Hid Hkn Hhist Hbuf].
    destruct (lossy_write p u0 net0 cs key Hcl Hop Hid K Hc Hp) as (w & u & net & c1 & -> & U1 & U2 & U3 & U4 & U5 & U6 & U7 & U8).
    rewrite (left_since_one _ _ _ _ U5). rewrite Hin in U3. rewrite Hbuf in U8.
    set (c := c_ctr cs + 1) in *.
    assert (Hle' : forall cs', c_ctr cs' = c -> Forall (fun x => x <= c_ctr cs') hist).
    { intros cs' ->. rewrite Forall_forall in *. intros y Hy. apply Hle in Hy. unfold c. lia. }
    assert (Lost : forall sn1 s1 hist', paired C ses chost hist' cs s1 -> Forall (fun x => x <= c) hist' -> n_closed sn1 = false -> n_in sn1 = [] ->
      let '(r, (x2, c2)) := udp_reads C CE chunk send o ses n (S k) (u, arrive_all srv [] net) c1 in
      length r = S k /\ Forall failed r /\ c_ctr c2 = c /\ exists hist', llinked hist' c2 x2 sn1 s1).
    { intros sn1 s1 hist' [Q1 Q2 Q3 Q4 Q5] HL O1 I1. cbn [arrive_all fold_left].
      destruct (udp_reads_none C CE chunk send o ses n WC (S k) u net c1 U2 U3 U8) as (rs & s' & -> & A1 & A2 & A3 & A4 & A5).
      split; [exact A1|]. split; [exact A2|]. split; [congruence|]. exists hist'. split; cbn [fst snd]; auto.
      - split; auto.
      - rewrite A5, U6. exact HL. }
    destruct ft.
    - cbn [serve_lossy arrive_all fold_left].
      destruct (lossy_serve p hist cs ss sn key P Hle Hops Hins K Hc Hp Hf Hlo) as (r & sn' & ss' & RS & S1 & S2 & S3 & S4 & S5 & S6).
      fold c in RS, S3, S4, S6. rewrite RS. rewrite S3. cbn [arrive_all fold_left udp_reads].
      set (rc := gcm_seal C key (gcm_nonce dir_s2c c) (f p)) in *. set (out := enc_response (RsProcess c rc)) in *.
      assert (Hh1 : holds u (arrive srv out net) out []).
      { right. cbn. split; [exact U2|]. split; [exact U4|]. exists srv. rewrite U3. reflexivity. }
      pose proof (ucrun_flat C CE chunk send _ _ (nowrite_read C o ses n) u (arrive srv out net) c1 _ _ Hh1) as F.
      destruct (read_fresh_run C (eof_env CE) o ses n (c_set_in c1 out) out [] c rc key (eof_works CE WC)) as (r' & c3 & Rr & Ri & (Rw1 & Rw2 & Rw3 & Rw4) & Rb).
      { exact U8. }
      { cbn. rewrite app_nil_r. reflexivity. }
      { exists x80. split; [reflexivity|]. split; [cbn; lia|]. split; [exact Hc|]. unfold rc. rewrite (gcm_seal_len _ L). unfold max_message_size. lia. }
      { exact K. }
      change (c_last (c_set_in c1 out)) with (c_last c1) in Rb. rewrite U7, N.eqb_refl in Rb. unfold rc in Rb. rewrite (gcm_open_seal _ L) in Rb.
      assert (r' = RdOk (f p) true /\ c_buf c3 = []) as [-> Hb3].
      { destruct (f p) as [|y z]; [congruence|]. destruct Rb as [-> ->]. apply N.leb_le in Hln. unfold takeN, dropN. rewrite Hln. auto. }
      rewrite Rr in F. destruct F as (u2 & n2 & s2 & -> & E3 & H3 & (R1 & R2 & R3 & R4 & R5) & D3). rewrite Ri in H3, D3.
      destruct H3 as [(X1 & X2 & X3)|(X & _ & _)]; [|exfalso; apply (enc_response_ne (RsProcess c rc)); symmetry; apply D3, X].
      rewrite E3 in Hb3, Rw2, Rw3. cbn [c_set_in c_ctr c_buf c_last] in Hb3, Rw2, Rw3.
      pose proof (udp_reads_nothing C CE chunk send o ses n [] WC k u2 n2 s2 (R1 U1) ltac:(rewrite R2; exact U4) X1 X2 X3 Hb3) as G.
      pose proof (udp_reads_len C CE chunk send o ses n k (u2, n2) s2) as GL.
      destruct (udp_reads C CE chunk send o ses n k (u2, n2) s2) as [rs [[u' net'] s']]. cbn [fst] in GL. destruct G as (G1 & G2 & G3 & G4 & G5 & G6 & G7).
      split; [split; [cbn; congruence|exists rs; auto]|]. split; [congruence|]. split.
      + exists (hist ++ [c]). split; cbn [fst snd]; auto.
        * split; auto. apply Forall_app. split; [exact Hhist|]. constructor; [exact Hc|constructor].
        * apply Forall_app. split; [apply Hle'; congruence|]. constructor; [|constructor]. rewrite G7, Rw2, U6. lia.
      + rewrite S4. reflexivity.
    - cbn [serve_lossy]. specialize (Lost sn ss hist P (eq_ind _ (fun z => Forall (fun x => x <= z) hist) (Hle' c1 U6) _ U6) Hops Hins).
      destruct (udp_reads _ _ _ _ _ _ _ _ _ _) as [r [x2 c2]]. destruct Lost as (A1 & A2 & A3 & A4). split; [split; [exact A1|exact A2]|].
      split; [exact A3|]. split; [exact A4|]. cbn. rewrite app_nil_r. reflexivity.
    - cbn [serve_lossy arrive_all fold_left].
      destruct (lossy_serve p hist cs ss sn key P Hle Hops Hins K Hc Hp Hf Hlo) as (r & sn' & ss' & RS & S1 & S2 & S3 & S4 & S5 & S6).
      fold c in RS, S3, S4, S6. rewrite RS. cbn [arrive_all fold_left] in Lost.
      assert (P' : paired C ses chost (hist ++ [c]) cs ss').
      { split; auto. apply Forall_app. split; [exact Hhist|]. constructor; [exact Hc|constructor]. }
      specialize (Lost sn' ss' (hist ++ [c]) P').
      destruct (udp_reads _ _ _ _ _ _ _ _ _ _) as [r1 [x2 c2]]. destruct Lost as (A1 & A2 & A3 & A4); auto.
      { apply Forall_app. split; [rewrite <- U6; apply Hle', U6|]. constructor; [lia|constructor]. }
      split; [split; [exact A1|exact A2]|]. split; [exact A3|]. split; [exact A4|exact S4].
  Qed.

  Lemma heard_cons c q rs : heard c (q :: rs) = heard c [q] ++ heard (c + 1) rs.
  Proof. destruct q as [[p []] k]; reflexivity. Qed.

  Lemma lossy_all : forall rs hist cs x sn ss, llinked hist cs x sn ss -> c_ctr cs + lenN rs < two64 ->
    Forall (fun q => let p := fst (fst q) in
      lenN p + 50 <= 65507 /\ (forall i, e_handler SE i true p = HOk (f p)) /\ f p <> [] /\ lenN (f p) + 33 <= 65507 /\ lenN (f p) <= n) rs ->
    let '(res, (_, (_, ss'))) := lossy C CE SE hostof chunk send me srv o ses n rs x cs sn ss in
    Forall2 (round_good f) rs res /\ seen (s_calls ss') = seen (s_calls ss) ++ heard (c_ctr cs + 1) rs.
  Proof.
    induction rs as [|[[p ft] k] rs IH]; intros hist cs x sn ss Hl Hc Hq; cbn [lossy].
    - split; [constructor|]. cbn. rewrite app_nil_r. reflexivity.
    - rewrite lenN_cons in Hc. inversion Hq as [|? ? (Hp & Hf & Hr) Hq2]; subst. cbn [fst] in Hp, Hf, Hr.
      pose proof (lossy_round p ft k hist cs x sn ss Hl ltac:(lia) Hp Hf Hr) as G.
      destruct (ucrun C CE chunk send (client_write C o ses p) x cs) as [w [[u net] c1]].
      destruct (serve_lossy _ _ _ _ _ _ _ _ _ _) as [ds [sn1 s1]].
      destruct (udp_reads _ _ _ _ _ _ _ _ _ _) as [r [x2 c2]]. destruct G as (G1 & G2 & (hist' & G3) & G4).
      specialize (IH hist' c2 x2 sn1 s1 G3 ltac:(lia) Hq2).
      destruct (lossy C CE SE hostof chunk send me srv o ses n rs x2 c2 sn1 s1) as [l [z [sn2 s2]]].
      destruct IH as [I1 I2]. split; [constructor; assumption|]. rewrite I2, G4, G2, <- app_assoc, (heard_cons _ _ rs). reflexivity.
  Qed.
End Loss.

Lemma udp_lossy C CE SE hostof chunk send me srv o ses n chost f rs hist cs u net sn ss : CryptoLaws C ->
  (forall i, ce_deadline CE i = true) -> (forall i b, lenN b <= 65507 -> send i b = true) -> hostof me = Some chost -> co_reply o = true ->
  paired C ses chost hist cs ss -> Forall (fun c => c <= c_ctr cs) hist ->
  udp_client u -> n_closed net = false -> n_in net = [] -> n_closed sn = false -> n_in sn = [] ->
  c_ctr cs + lenN rs < two64 ->
  Forall (fun q => let p := fst (fst q) in
    lenN p + 50 <= 65507 /\ (forall i, e_handler SE i true p = HOk (f p)) /\ f p <> [] /\ lenN (f p) + 33 <= 65507 /\ lenN (f p) <= n) rs ->
  let '(res, (_, (_, ss'))) := lossy C CE SE hostof chunk send me srv o ses n rs (u, net) cs sn ss in
  Forall2 (round_good f) rs res /\ seen (s_calls ss') = seen (s_calls ss) ++ heard (c_ctr cs + 1) rs.
Proof.
  intros L WC Hs Hh Ho P Hle Hu H1 H2 H3 H4 Hc Hq.
  apply (lossy_all C CE SE hostof chunk send me srv o ses n chost f L WC Hs Hh Ho rs hist cs (u, net) sn ss); auto. split; cbn; auto.
Qed.
