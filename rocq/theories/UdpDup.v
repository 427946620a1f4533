(** A request that arrives twice. *)
From Verif Require Import Bytes BytesProofs Parser ParserProofs Crypto Kdf Wire WireProofs WireSeq WireExtra Replay SpecReplay
  ReplayProofs Server ServerSeq SpecServer ServerProofs ServerProps ServerProps2 ServerProps3 MultiConn SpecMulti Keys KeysProofs
  System SpecSystem Client ClientSeq SpecClient ClientProofs SpecE2E E2EProofs LostProofs Udp SpecUdp UdpProofs UdpThms UdpMore UdpTalk SpecUdpLoss
  UdpLoss SpecUdpDup.

Lemma once_refused hist c : Forall (fun c => c < two64) hist -> c < two64 -> ~ refused_after hist c -> refused_after (hist ++ [c]) c.
Proof.
  intros Hh Hc Hf. unfold refused_after. cbv zeta. right; left. pose proof (proj2 (fresh_iff hist c Hh Hc) Hf) as Hfr.
  rewrite checks_app. destruct (checks_total new_window hist) as (rs & w & Ew & Hlen). rewrite Ew in *.
  cbn [snd] in Hfr. destruct (check_and_update w c) as [b w2] eqn:Ec. cbn [fst] in Hfr. subst b.
  cbn [checks fst snd]. rewrite Ec. cbn [fst snd].
  clear - Hlen. revert rs Hlen. induction hist as [|x h IH]; intros [|y rs] Hl; try discriminate Hl; cbn.
  - left; reflexivity.
  - apply in_or_app. right. apply IH. injection Hl; auto.
Qed.

Lemma replay_error_ok : response_ok (RsError 5 msg_replay).
Proof. vm_compute. repeat split; congruence. Qed.
Lemma replay_error_len : lenN (enc_response (RsError 5 msg_replay)) <= 65507.
Proof. vm_compute. congruence. Qed.

Lemma arrive_all_in a ds : forall net, n_in (arrive_all a ds net) = n_in net ++ map (pair a) ds.
Proof. induction ds as [|d ds IH]; intros net; cbn; [rewrite app_nil_r; reflexivity|]. fold (arrive_all a ds (arrive a d net)). rewrite IH. cbn. rewrite <- app_assoc. reflexivity. Qed.
Lemma arrive_all_rest a ds : forall net, n_out (arrive_all a ds net) = n_out net /\ n_closed (arrive_all a ds net) = n_closed net.
Proof. induction ds as [|d ds IH]; intros net; cbn; [auto|]. fold (arrive_all a ds (arrive a d net)). apply (IH (arrive a d net)). Qed.

Section Dup.
  Variables (C : Crypto) (CE : cenv) (SE : senv) (hostof : bytes -> option bytes) (chunk : nat -> N) (send : nat -> bytes -> bool)
    (me srv : bytes) (o : copts) (ses : csession) (n : N) (chost : bytes) (f : bytes -> bytes).
  Hypothesis L : CryptoLaws C.
  Hypothesis WC : forall i, ce_deadline CE i = true.
  Hypothesis Hsend : forall i b, lenN b <= 65507 -> send i b = true.
  Hypothesis Hh : hostof me = Some chost.
  Hypothesis Ho : co_reply o = true.

  Definition stored (hist : list N) (ss : sst) : Prop :=
    wf ss /\ known C ss chost (cs_id ses) = Some {| ses_secret := cs_secret ses; ses_win := snd (checks new_window hist) |}.
  Definition err5 : bytes := enc_response (RsError 5 msg_replay).

  Lemma serve_again b hist ss sn c ct : stored hist ss -> Forall (fun c => c < two64) hist -> length (cs_id ses) = 16%nat ->
    c < two64 -> lenN ct <= max_message_size -> refused_after hist c -> n_closed sn = false -> n_in sn = [] ->
    exists r sn' ss', udp_exchange C SE hostof chunk send (arrive me (enc_request (RqProcess (cs_id ses) c ct b)) sn) ss = (r, (sn', ss')) /\
      n_closed sn' = false /\ n_in sn' = [] /\ left_since sn sn' = [err5] /\ s_calls ss' = s_calls ss /\ stored hist ss'.
  Proof.
    intros [Hwf Hkn] Hhist Hid Hc Hct Hr Hop Hin. set (q := enc_request _).
    destruct (exchange_flat C SE hostof chunk send (arrive me q sn) ss me q [] Hop ltac:(cbn; rewrite Hin; reflexivity))
      as (r & s1 & l & ok & sn' & ss' & -> & R & Hs1 & Hsent & Hfull & Hin' & Hcl' & Hout).
    set (E := dgram_env SE (hostof me)) in *. set (s0 := set_in ss q) in *.
    assert (WS : writes_all E) by (intros i x; cbn; split; [lia|reflexivity]).
    assert (Hin0 : s_in s0 = q ++ []) by (rewrite app_nil_r; reflexivity).
    assert (Hok : request_ok (RqProcess (cs_id ses) c ct b)) by (split; [exact Hid|]; split; assumption).
    assert (Hwf0 : wf s0) by (apply (wf_same ss); auto).
    set (E0 := shift (s_step s0) E).
    assert (Q0 : e_quit E0 (s_step s0) = false) by (cbn [E0 shift e_quit]; rewrite Nat.eqb_refl; reflexivity).
    pose proof (process_replay_text C E0 s0 chost (cs_id ses) ct [] c b Hok Hin0 Q0 Hh _ hist Hkn Hhist eq_refl Hr) as PA.
    pose proof (WF_conn C E0 s0 Hwf0) as WF'.
    unfold E0 in PA, WF'. rewrite one_request_conn in PA, WF'. fold E0 in PA, WF'.
    rewrite R in PA, WF'. cbn [fst snd] in PA, WF'.
    destruct PA as ((kk & Prs) & Pc & Ps & _ & _).
    change (s_sent (tick s1)) with (s_sent s1) in Prs. change (s_sent s0) with (s_sent ss) in Prs.
    change (enc_response (RsError 5 msg_replay)) with err5 in Prs.
    rewrite Prs in Hsent. apply app_inv_head in Hsent. subst l. inversion Hfull as [|? ? F1 _]. cbn [fst snd] in F1. subst kk.
    pose proof (UdpThms.wire_one err5 (lenN err5) eq_refl) as Ww.  rewrite Ww in Hout.
    destruct Hout as [(X & _)|(_ & Hok' & Hout)]; [exfalso; revert X; apply enc_response_ne|].
    rewrite Hsend in Hok' by apply replay_error_len. subst ok.
    do 3 eexists. split; [reflexivity|]. split; [exact Hcl'|]. split; [exact Hin'|]. split; [exact (left_since_one _ _ _ _ Hout)|].
    assert (X : s_calls ss' = s_calls s1) by (rewrite <- Hs1; reflexivity). split; [rewrite X; exact Pc|].
    split; [apply (wf_same (tick s1)); auto; rewrite <- Hs1; reflexivity|].
    specialize (Ps chost (cs_id ses)). change (known C s0 chost (cs_id ses)) with (known C ss chost (cs_id ses)) in Ps.
    rewrite Hkn in Ps. rewrite <- Hs1 in Ps. exact Ps.
  Qed.

  Lemma serve_repeats hist c ct : Forall (fun c => c < two64) hist -> length (cs_id ses) = 16%nat ->
    c < two64 -> lenN ct <= max_message_size -> refused_after hist c -> forall j ss sn, stored hist ss -> n_closed sn = false -> n_in sn = [] ->
    exists sn' ss', serve_each C SE hostof chunk send me (concat (repeat [enc_request (RqProcess (cs_id ses) c ct true)] j)) sn ss =
        (repeat err5 j, (sn', ss')) /\
      n_closed sn' = false /\ n_in sn' = [] /\ s_calls ss' = s_calls ss /\ stored hist ss'.
  Proof.
    intros Hhist Hid Hc Hct Hr. induction j as [|j IH]; intros ss sn Hst Hop Hin; cbn [repeat concat app serve_each]; [exists sn, ss; auto|].
    destruct (serve_again true hist ss sn c ct Hst Hhist Hid Hc Hct Hr Hop Hin) as (r & sn1 & s1 & -> & A1 & A2 & A3 & A4 & A5).
    destruct (IH s1 sn1 A5 A1 A2) as (sn2 & s2 & -> & B1 & B2 & B3 & B4). rewrite A3.
    exists sn2, s2. split; [reflexivity|]. split; [exact B1|]. split; [exact B2|]. split; [congruence|exact B4].
  Qed.

  (** What may wait at the client: refusals, and replies to counters up to [c]. *)
  Definition stale (c : N) (d : bytes) : Prop :=
    d = err5 \/ exists c' ct, c' <= c /\ process_response_octets d c' ct.

  Record dlinked (hist : list N) (old : list bytes) (cs : cst) (x : udpc * unet) (sn : unet) (ss : sst) : Prop := {
    dl_paired : paired C ses chost hist cs ss;
    dl_hist : Forall (fun c => c <= c_ctr cs) hist;
    dl_client : udp_client (fst x);
    dl_open : n_closed (snd x) = false /\ n_closed sn = false;
    dl_in : n_in (snd x) = map (pair srv) old /\ n_in sn = [];
    dl_old : Forall (stale (c_ctr cs)) old }.

  Lemma stale_ne c d : stale c d -> d <> [].
  Proof. intros [->|(c' & ct & _ & b0 & -> & _)]; [apply enc_response_ne|discriminate]. Qed.

  (** A first Read of a datagram, and any more. *)
  Lemma read_head k u net s d q r s1 : udp_client u -> u_read u = false -> n_closed net = false -> n_in net = map (pair srv) (d :: q) -> d <> [] ->
    crun C (eof_env CE) (client_read C o ses n) (c_set_in s d) = (Some r, s1) -> c_in s1 = [] -> c_buf s1 = [] -> c_last s1 = c_last s -> c_ctr s1 = c_ctr s ->
    exists rs u' net' s', udp_reads C CE chunk send o ses n (S k) (u, net) s = (Some r :: rs, ((u', net'), s')) /\
      length rs = k /\ Forall failed rs /\ udp_client u' /\ n_closed net' = false /\ n_in net' = map (pair srv) q /\ c_buf s' = [] /\
      c_last s' = c_last s /\ c_ctr s' = c_ctr s.
  Proof.
    intros Hu Hr Hc Hin Hne R Ri Rb Rl Rc. cbn [udp_reads].
    assert (Hh1 : holds u net d (map (pair srv) q)) by (right; split; [exact Hr|]; split; [exact Hc|]; exists srv; exact Hin).
    pose proof (ucrun_flat C CE chunk send _ _ (nowrite_read C o ses n) u net s _ _ Hh1) as F. rewrite R in F.
    destruct F as (u2 & n2 & s2 & -> & E3 & H3 & (R1 & R2 & R3 & R4 & R5) & D3). rewrite Ri in H3, D3.
    destruct H3 as [(X1 & X2 & X3)|(X & _ & _)]; [|exfalso; apply Hne; symmetry; apply D3, X].
    rewrite E3 in Rb, Rl, Rc. cbn [c_set_in c_ctr c_buf c_last] in Rb, Rl, Rc.
    pose proof (udp_reads_nothing C CE chunk send o ses n (map (pair srv) q) WC k u2 n2 s2 (R1 Hu) ltac:(rewrite R2; exact Hc) X1 X2 X3 Rb) as G.
    pose proof (udp_reads_len C CE chunk send o ses n k (u2, n2) s2) as GL.
    destruct (udp_reads C CE chunk send o ses n k (u2, n2) s2) as [rs [[u' net'] s']]. cbn [fst] in GL.
    destruct G as (G1 & G2 & G3 & G4 & G5 & G6 & G7).
    exists rs, u', net', s'. split; [reflexivity|]. split; [exact GL|]. split; [exact G1|]. split; [exact G2|]. split; [exact G3|].
    split; [exact G4|]. split; [exact G5|]. split; congruence.
  Qed.
  Lemma read_old d s key : c_buf s = [] -> stale (c_last s - 1) d -> c_last s <> 0 -> client_gcm C (cs_secret ses) = Some key ->
    exists e s1, crun C (eof_env CE) (client_read C o ses n) (c_set_in s d) = (Some (RdErr e), s1) /\ c_in s1 = [] /\ c_buf s1 = [] /\
      c_last s1 = c_last s /\ c_ctr s1 = c_ctr s.
  Proof.
    intros Hb [->|(c' & ct & Hle & Hd)] Hl K.
    - destruct (any_error_run_last C (eof_env CE) o ses n (c_set_in s err5) 5 msg_replay [] (eof_works CE WC) Hb replay_error_ok)
        as (s1 & R & R1 & R2 & R3 & R4 & R5); [symmetry; apply app_nil_r|]. eauto 10.
    - destruct (read_fresh_run C (eof_env CE) o ses n (c_set_in s d) d [] c' ct key (eof_works CE WC) Hb) as (r' & s1 & R & Ri & (Rw1 & Rw2 & Rw3 & Rw4) & Rb).
      { cbn. rewrite app_nil_r. reflexivity. }
      { exact Hd. }
      { exact K. }
      cbn [c_set_in c_last] in Rb. destruct (N.eqb_spec c' (c_last s)); [lia|]. destruct Rb as [-> Rb].
      do 2 eexists. split; [exact R|]. auto.
  Qed.

  Definition new_datagrams (key : bytes) (c : N) (p : bytes) (j : nat) : list bytes :=
    match j with O => [] | S j' => enc_response (RsProcess c (gcm_seal C key (gcm_nonce dir_s2c c) (f p))) :: repeat err5 j' end.

  Lemma serve_copies p j hist cs ss sn key : paired C ses chost hist cs ss -> Forall (fun c => c <= c_ctr cs) hist ->
    n_closed sn = false -> n_in sn = [] -> client_gcm C (cs_secret ses) = Some key -> c_ctr cs + 1 < two64 -> lenN p + 50 <= 65507 ->
    (forall i, e_handler SE i true p = HOk (f p)) -> lenN (f p) + 33 <= 65507 ->
    let c := c_ctr cs + 1 in
    let q := enc_request (RqProcess (cs_id ses) c (gcm_seal C key (gcm_nonce dir_c2s c) p) true) in
    exists sn' ss' hist', serve_each C SE hostof chunk send me (concat (repeat [q] j)) sn ss = (new_datagrams key c p j, (sn', ss')) /\
      n_closed sn' = false /\ n_in sn' = [] /\
      seen (s_calls ss') = seen (s_calls ss) ++ (match j with O => [] | S _ => [(c, true, p)] end) /\ stored hist' ss' /\
      Forall (fun c => c < two64) hist' /\ Forall (fun x => x <= c) hist'.
  Proof.
    intros P Hle Hop Hin K Hc Hp Hf Hlo c q. destruct j as [|j].
    { pose proof P as [Hwf Hid Hkn Hhist Hbuf]. exists sn, ss, hist. cbn. rewrite app_nil_r. split; [reflexivity|]. repeat (split; [assumption || reflexivity|]).
      split; [split; assumption|]. split; [exact Hhist|]. rewrite Forall_forall in *. intros y Hy. apply Hle in Hy. unfold c. lia. }
    cbn [repeat concat app serve_each].
    destruct (lossy_serve C CE SE hostof chunk send me o ses chost f L WC Hsend Hh p hist cs ss sn key P Hle Hop Hin K Hc Hp Hf Hlo)
      as (r & sn1 & s1 & RS & S1 & S2 & S3 & S4 & S5 & S6).
    fold c q in RS, S3, S4, S6. rewrite RS. pose proof P as [Hwf Hid Hkn Hhist Hbuf].
    assert (Hh' : Forall (fun c => c < two64) (hist ++ [c])) by (apply Forall_app; split; [exact Hhist|repeat constructor; exact Hc]).
    assert (Hct : lenN (gcm_seal C key (gcm_nonce dir_c2s c) p) <= max_message_size) by (rewrite (gcm_seal_len _ L); unfold max_message_size; lia).
    assert (Hrf : refused_after (hist ++ [c]) c) by (apply once_refused; auto; apply next_not_refused, Hle).
    destruct (serve_repeats (hist ++ [c]) c _ Hh' Hid Hc Hct Hrf j s1 sn1 (conj S5 S6) S1 S2) as (sn2 & s2 & R2 & B1 & B2 & B3 & B4).
    unfold q. rewrite R2, S3. exists sn2, s2, (hist ++ [c]). split; [reflexivity|]. split; [exact B1|]. split; [exact B2|]. split; [rewrite B3; exact S4|].
    split; [exact B4|]. split; [exact Hh'|]. apply Forall_app. split; [|repeat constructor; lia].
    rewrite Forall_forall in *. intros y Hy. apply Hle in Hy. unfold c. lia.
  Qed.

  Definition first_read (old : list bytes) (j : nat) (p : bytes) (r : option rd_result) : Prop :=
    match old, j with [], S _ => r = Some (RdOk (f p) true) | _, _ => failed r end.

  Lemma dup_round p j k hist old cs x sn ss : dlinked hist old cs x sn ss -> c_ctr cs + 1 < two64 -> lenN p + 50 <= 65507 ->
    (forall i, e_handler SE i true p = HOk (f p)) -> f p <> [] /\ lenN (f p) + 33 <= 65507 /\ lenN (f p) <= n ->
    let '(_, ((u, net), c1)) := ucrun C CE chunk send (client_write C o ses p) x cs in
    let '(ds, (sn1, s1)) := serve_each C SE hostof chunk send me (concat (repeat (left_since (snd x) net) j)) sn ss in
    let '(r, (x2, c2)) := udp_reads C CE chunk send o ses n (S k) (u, arrive_all srv ds net) c1 in
    (exists r0 rs, r = r0 :: rs /\ length rs = k /\ Forall failed rs /\ first_read old j p r0) /\ c_ctr c2 = c_ctr cs + 1 /\
    (exists hist' old', dlinked hist' old' c2 x2 sn1 s1 /\ length old' = pred (length old + j)) /\
    seen (s_calls s1) = seen (s_calls ss) ++ arrived (c_ctr cs + 1) [(p, j, k)].
  Proof.
    intros [P Hle Hcl [Hop Hops] [Hin Hins] Hold] Hc Hp Hf (Hne & Hlo & Hln).
    destruct (client_gcm_some C L (cs_secret ses)) as (key & K). destruct x as [u0 net0]. cbn [fst snd] in *.
    pose proof P as [Hwf Hid Hkn Hhist Hbuf].
    destruct (lossy_write C CE chunk send o ses L WC Hsend Ho p u0 net0 cs key Hcl Hop Hid K Hc Hp) as (w & u & net & c1 & -> & U1 & U2 & U3 & U4 & U5 & U6 & U7 & U8).
    rewrite (left_since_one _ _ _ _ U5). rewrite Hin in U3. rewrite Hbuf in U8.
    destruct (serve_copies p j hist cs ss sn key P Hle Hops Hins K Hc Hp Hf Hlo) as (sn1 & s1 & hist' & -> & V1 & V2 & V3 & [V4 V5] & V6 & V7).
    set (c := c_ctr cs + 1) in *. set (ds := new_datagrams key c p j).
    assert (Hin2 : n_in (arrive_all srv ds net) = map (pair srv) (old ++ ds)) by (rewrite arrive_all_in, U3, map_app; reflexivity).
    assert (Hcl2 : n_closed (arrive_all srv ds net) = false) by (rewrite (proj2 (arrive_all_rest srv ds net)); exact U4).
    set (rc := gcm_seal C key (gcm_nonce dir_s2c c) (f p)).
    assert (Hpo : process_response_octets (enc_response (RsProcess c rc)) c rc).
    { exists x80. split; [reflexivity|]. split; [cbn; lia|]. split; [exact Hc|]. unfold rc. rewrite (gcm_seal_len _ L). unfold max_message_size. lia. }
    assert (Hds : Forall (stale c) ds).
    { unfold ds, new_datagrams. destruct j as [|j]; [constructor|]. constructor; [right; exists c, rc; split; [lia|exact Hpo]|].
      clear. induction j; cbn; constructor; auto. left; reflexivity. }
    assert (Hold' : Forall (stale c) old).
    { eapply Forall_impl; [|exact Hold]. intros d [->|(c' & ct & H1 & H2)]; [left; reflexivity|]. right. exists c', ct. split; [unfold c; lia|exact H2]. }
    assert (Fin : forall r old' u' net' (s' : cst), (exists r0 rs, r = r0 :: rs /\ length rs = k /\ Forall failed rs /\ first_read old j p r0) ->
      udp_client u' -> n_closed net' = false -> n_in net' = map (pair srv) old' -> c_buf s' = [] -> c_ctr s' = c_ctr c1 -> Forall (stale c) old' ->
      length old' = pred (length old + j) ->
      (exists r0 rs, r = r0 :: rs /\ length rs = k /\ Forall failed rs /\ first_read old j p r0) /\ c_ctr s' = c /\
      (exists hist' old', dlinked hist' old' s' (u', net') sn1 s1 /\ length old' = pred (length old + j)) /\
      seen (s_calls s1) = seen (s_calls ss) ++ arrived c [(p, j, k)]).
    { intros r old' u' net' s' W1 W2 W3 W4 W5 W6 W7 W8. rewrite U6 in W6. split; [exact W1|]. split; [exact W6|]. split.
      - exists hist', old'. split; [|exact W8]. split; cbn [fst snd]; auto.
        + split; auto.
        + rewrite W6. exact V7.
        + rewrite W6. exact W7.
      - rewrite V3. destruct j; reflexivity. }
    assert (Hlast : c_last c1 <> 0 /\ c_last c1 - 1 = c_ctr cs) by (rewrite U7; unfold c; lia). destruct Hlast as [Hl0 Hl1].
    destruct old as [|d old].
    - destruct j as [|j].
      +
        destruct (udp_reads_none C CE chunk send o ses n WC (S k) u (arrive_all srv ds net) c1 U2 Hin2 U8) as (rs & s' & -> & A1 & A2 & A3 & A4 & A5).
        apply (Fin rs []); auto. destruct rs as [|r0 rs]; [discriminate A1|]. inversion A2; subst. exists r0, rs. split; [reflexivity|].
        split; [injection A1; auto|]. split; [assumption|]. assumption.
      + cbn [app] in Hin2.
        destruct (read_fresh_run C (eof_env CE) o ses n (c_set_in c1 (enc_response (RsProcess c rc))) (enc_response (RsProcess c rc)) [] c rc key (eof_works CE WC) U8)
          as (r' & c3 & Rr & Ri & (Rw1 & Rw2 & Rw3 & Rw4) & Rb); [symmetry; apply app_nil_r|exact Hpo|exact K|].
        cbn [c_set_in c_last] in Rb. rewrite U7, N.eqb_refl in Rb. unfold rc at 1 in Rb. rewrite (gcm_open_seal _ L) in Rb.
        assert (r' = RdOk (f p) true /\ c_buf c3 = []) as [-> Hb3].
        { destruct (f p) as [|y z]; [congruence|]. destruct Rb as [-> ->]. apply N.leb_le in Hln. unfold takeN, dropN. rewrite Hln. auto. }
        destruct (read_head k u (arrive_all srv ds net) c1 _ _ _ _ U1 U2 Hcl2 Hin2 (enc_response_ne _) Rr Ri Hb3 Rw3 Rw2) as (rs & u' & net' & s' & -> & Z1 & Z2 & Z3 & Z4 & Z5 & Z6 & Z7 & Z8).
        apply (Fin _ (repeat err5 j)); auto.
        * eexists _, rs. split; [reflexivity|]. split; [exact Z1|]. split; [exact Z2|reflexivity].
        * inversion Hds; assumption.
        * rewrite repeat_length. reflexivity.
    - inversion Hold as [|? ? Hd _]; subst. cbn [app] in Hin2.
      destruct (read_old d c1 key U8) as (e & c3 & Rr & Ri & Rb & Rl & Rc); [rewrite Hl1; exact Hd|exact Hl0|exact K|].
      destruct (read_head k u (arrive_all srv ds net) c1 _ _ _ _ U1 U2 Hcl2 Hin2 (stale_ne _ _ Hd) Rr Ri Rb Rl Rc) as (rs & u' & net' & s' & -> & Z1 & Z2 & Z3 & Z4 & Z5 & Z6 & Z7 & Z8).
      apply (Fin _ (old ++ ds)); auto.
      + eexists _, rs. split; [reflexivity|]. split; [exact Z1|]. split; [exact Z2|]. exists e. reflexivity.
      + inversion Hold'; subst. apply Forall_app. split; assumption.
      + rewrite app_length. unfold ds, new_datagrams. destruct j; cbn [length]; [|rewrite repeat_length]; cbn; lia.
  Qed.

  Definition dup_fits (q : bytes * nat * nat) : Prop :=
    let p := fst (fst q) in
    lenN p + 50 <= 65507 /\ (forall i, e_handler SE i true p = HOk (f p)) /\ f p <> [] /\ lenN (f p) + 33 <= 65507 /\ lenN (f p) <= n.

  Lemma arrived_cons c q rs : arrived c (q :: rs) = arrived c [q] ++ arrived (c + 1) rs.
  Proof. destruct q as [[p []] k]; reflexivity. Qed.

  (** With a datagram left over and each request arriving, every Read fails. *)
  Lemma dup_all : forall rs hist old cs x sn ss, dlinked hist old cs x sn ss -> c_ctr cs + lenN rs < two64 -> Forall dup_fits rs ->
    let '(res, (_, (_, ss'))) := copied C CE SE hostof chunk send me srv o ses n rs x cs sn ss in
    Forall2 (round_safe f) rs res /\ seen (s_calls ss') = seen (s_calls ss) ++ arrived (c_ctr cs + 1) rs /\
    (old <> [] -> Forall (fun q => (1 <= snd (fst q))%nat) rs -> Forall (Forall failed) res) /\
    (old = [] -> forall p j k rs', rs = (p, S (S j), k) :: rs' -> Forall (fun q => (1 <= snd (fst q))%nat) rs' ->
       exists r1 res', res = (Some (RdOk (f p) true) :: r1) :: res' /\ Forall failed r1 /\ Forall (Forall failed) res').
  Proof.
    induction rs as [|[[p j] k] rs IH]; intros hist old cs x sn ss Hl Hc Hq; cbn [copied].
    - split; [constructor|]. split; [cbn; rewrite app_nil_r; reflexivity|]. split; [constructor|]. intros _ p j k rs' X; discriminate X.
    - rewrite lenN_cons in Hc. inversion Hq as [|? ? (Hp & Hf & Hr) Hq2]; subst. cbn [fst] in Hp, Hf, Hr.
      pose proof (dup_round p j k hist old cs x sn ss Hl ltac:(lia) Hp Hf Hr) as G.
      destruct (ucrun C CE chunk send (client_write C o ses p) x cs) as [w [[u net] c1]].
      destruct (serve_each _ _ _ _ _ _ _ _ _) as [ds [sn1 s1]].
      destruct (udp_reads _ _ _ _ _ _ _ _ _ _) as [r [x2 c2]].
      destruct G as ((r0 & rs0 & -> & G1 & G2 & G3) & G4 & (hist' & old' & G5 & G6) & G7).
      specialize (IH hist' old' c2 x2 sn1 s1 G5 ltac:(lia) Hq2).
      destruct (copied C CE SE hostof chunk send me srv o ses n rs x2 c2 sn1 s1) as [l [z [sn2 s2]]].
      destruct IH as (I1 & I2 & I3 & I4). split; [|split; [|split]].
      + constructor; [|exact I1]. split; [cbn; congruence|]. constructor.
        * unfold first_read in G3. destruct old; [destruct j|]; auto.
        * eapply Forall_impl; [|exact G2]. auto.
      + rewrite I2, G7, G4, <- app_assoc, (arrived_cons _ _ rs). reflexivity.
      + intros Hne Hj. inversion Hj as [|? ? J1 J2]; subst. cbn [fst snd] in J1. constructor.
        * constructor; [|exact G2]. unfold first_read in G3. destruct old; [congruence|exact G3].
        * apply I3; [|exact J2]. destruct old as [|? old]; [congruence|]. destruct old'; [|discriminate]. cbn [length] in G6. lia.
      + intros -> p' j' k' rs' X J. injection X as -> -> -> ->. exists rs0, l. cbn [first_read] in G3. rewrite G3. split; [reflexivity|].
        split; [exact G2|]. apply I3; [|exact J]. destruct old'; [|discriminate]. cbn [length] in G6. lia.
  Qed.
End Dup.

Lemma udp_copied C CE SE hostof chunk send me srv o ses n chost f rs hist cs u net sn ss : CryptoLaws C ->
  (forall i, ce_deadline CE i = true) -> (forall i b, lenN b <= 65507 -> send i b = true) -> hostof me = Some chost -> co_reply o = true ->
  paired C ses chost hist cs ss -> Forall (fun c => c <= c_ctr cs) hist ->
  udp_client u -> n_closed net = false -> n_in net = [] -> n_closed sn = false -> n_in sn = [] ->
  c_ctr cs + lenN rs < two64 ->
  Forall (fun q => let p := fst (fst q) in
    lenN p + 50 <= 65507 /\ (forall i, e_handler SE i true p = HOk (f p)) /\ f p <> [] /\ lenN (f p) + 33 <= 65507 /\ lenN (f p) <= n) rs ->
  let '(res, (_, (_, ss'))) := copied C CE SE hostof chunk send me srv o ses n rs (u, net) cs sn ss in
  Forall2 (round_safe f) rs res /\ seen (s_calls ss') = seen (s_calls ss) ++ arrived (c_ctr cs + 1) rs.
Proof.
  intros L WC Hs Hh Ho P Hle Hu H1 H2 H3 H4 Hc Hq.
  assert (D : dlinked C srv ses chost hist [] cs (u, net) sn ss) by (split; cbn; auto).
  pose proof (dup_all C CE SE hostof chunk send me srv o ses n chost f L WC Hs Hh Ho rs hist [] cs (u, net) sn ss D Hc Hq) as G.
  destruct (copied _ _ _ _ _ _ _ _ _ _ _ _ _ _ _ _) as [res [z [sn' ss']]]. destruct G as (G1 & G2 & _). auto.
Qed.

Lemma udp_twice C CE SE hostof chunk send me srv o ses n chost f p j k rs hist cs u net sn ss : CryptoLaws C ->
  (forall i, ce_deadline CE i = true) -> (forall i b, lenN b <= 65507 -> send i b = true) -> hostof me = Some chost -> co_reply o = true ->
  paired C ses chost hist cs ss -> Forall (fun c => c <= c_ctr cs) hist ->
  udp_client u -> n_closed net = false -> n_in net = [] -> n_closed sn = false -> n_in sn = [] ->
  let all := (p, S (S j), k) :: rs in
  c_ctr cs + lenN all < two64 ->
  Forall (fun q => let p := fst (fst q) in
    lenN p + 50 <= 65507 /\ (forall i, e_handler SE i true p = HOk (f p)) /\ f p <> [] /\ lenN (f p) + 33 <= 65507 /\ lenN (f p) <= n) all ->
  Forall (fun q => (1 <= snd (fst q))%nat) rs ->
  let '(res, (_, (_, ss'))) := copied C CE SE hostof chunk send me srv o ses n all (u, net) cs sn ss in
  (exists r1 res', res = (Some (RdOk (f p) true) :: r1) :: res' /\ length res' = length rs /\ Forall (Forall failed) res') /\
  seen (s_calls ss') = seen (s_calls ss) ++ numbered (c_ctr cs + 1) true (map (fun q => fst (fst q)) all).
Proof.
  intros L WC Hs Hh Ho P Hle Hu H1 H2 H3 H4 all Hc Hq Hj.
  assert (D : dlinked C srv ses chost hist [] cs (u, net) sn ss) by (split; cbn; auto).
  pose proof (dup_all C CE SE hostof chunk send me srv o ses n chost f L WC Hs Hh Ho all hist [] cs (u, net) sn ss D Hc Hq) as G.
  destruct (copied _ _ _ _ _ _ _ _ _ _ _ _ _ _ _ _) as [res [z [sn' ss']]]. destruct G as (G1 & G2 & _ & G3).
  destruct (G3 eq_refl p j k rs eq_refl Hj) as (r1 & res' & -> & F1 & F2). split.
  - exists r1, res'. split; [reflexivity|]. split; [|exact F2]. inversion G1 as [|? ? ? ? _ G4]; subst. clear - G4. induction G4; cbn; congruence.
  - rewrite G2. f_equal. unfold all. cbn [arrived map fst snd numbered]. f_equal.
    clear - Hj. generalize (c_ctr cs + 1 + 1). induction Hj as [|[[q i] m] l H _ IH]; intros c; [reflexivity|]. cbn [fst snd] in H.
    destruct i as [|i]; [lia|]. cbn [arrived map fst snd numbered]. f_equal. apply IH.
Qed.
