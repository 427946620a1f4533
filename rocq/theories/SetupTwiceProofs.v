(** Lemmas for C181: a Setup request that the network delivers more than once. *)
From Verif Require Import Bytes BytesProofs Parser ParserProofs Crypto Kdf Wire WireProofs WireSeq WireExtra Replay SpecReplay
  ReplayProofs Server ServerSeq SpecServer ServerProofs ServerProps ServerProps2 ServerProps3 MultiConn SpecMulti Keys KeysProofs
  Client ClientSeq SpecClient ClientProofs SpecE2E E2EProofs LostProofs SpecSystem Udp SpecUdp UdpProofs UdpThms UdpMore UdpTalk SpecUdpLoss UdpLoss SpecUdpDup UdpDup.

Definition err2 : bytes := enc_response (RsError 2 msg_decrypt).
Lemma err2_ok : response_ok (RsError 2 msg_decrypt).
Proof. vm_compute. repeat split; congruence. Qed.
Lemma err2_len : lenN err2 <= 65507.
Proof. vm_compute. congruence. Qed.
Lemma setup_resp_len pub sig : length pub = 32%nat -> lenN (enc_response (RsSetup pub 4 sig)) <= lenN sig + 54.
Proof.
  intros H. cbn [enc_response]. unfold enc_setup_resp. cbn [new_setup_response ss_common ss_pub ss_hash ss_sig].
  unfold pkix_x25519, enc_resp_common. destruct (0 <? lenN sig);
    rewrite !lenN_app, !be_enc_lenN; unfold lenN; rewrite ?app_length, ?H; cbn [length rs_success]; change (length x25519_prefix) with 12%nat; cbn; lia.
Qed.

(** The first 17 octets of a Setup response, and what Read makes of them. *)
Definition setup_head : bytes := x80 :: be_enc 4 44 ++ x25519_prefix.
Lemma setup_resp_head pub sig : length pub = 32%nat -> exists t, enc_response (RsSetup pub 4 sig) = setup_head ++ t.
Proof.
  intros H. cbn [enc_response]. unfold enc_setup_resp. cbn [new_setup_response ss_common ss_pub ss_hash ss_sig].
  assert (E : lenN (pkix_x25519 pub) mod two32 = 44).
  { unfold pkix_x25519, lenN. rewrite app_length, H. reflexivity. }
  rewrite E. unfold pkix_x25519. eexists. unfold setup_head. rewrite <- !app_assoc. reflexivity.
Qed.
Lemma read_setup C E o ses n s t : c_works E -> c_buf s = [] -> c_in s = setup_head ++ t ->
  exists s', crun C E (client_read C o ses n) s = (Some (RdErr (RdParse ELimit)), s') /\ c_in s' = t /\ c_buf s' = [] /\ c_ctr s' = c_ctr s /\ c_last s' = c_last s.
Proof.
  intros W Hb Hin. change (client_read C o ses n) with
    (cbind (if co_rto o then cdo CDeadline else CRet true) (read_after_deadline C ses n)).
  destruct (deadline_ok C E W (co_rto o) (read_after_deadline C ses n) s) as (s1 & -> & Hi & Hs & Hc1 & Hll & Hbf & Hse).
  unfold read_after_deadline. cbn [negb]. rewrite crun_do. cbn [cexec fst snd]. rewrite Hbf, Hb.
  change (0 <? lenN []) with false. cbv iota. rewrite crun_bind, crun_lift, Hi, Hin.
  change (setup_head ++ t) with (x80 :: (be_enc 4 44 ++ x25519_prefix) ++ t).
  assert (Eq : be_enc 4 44 ++ x25519_prefix = takeN 8 (be_enc 4 44 ++ x25519_prefix) ++ dropN 8 (be_enc 4 44 ++ x25519_prefix)) by reflexivity.
  set (p := takeN 8 (be_enc 4 44 ++ x25519_prefix)) in *. set (q := dropN 8 (be_enc 4 44 ++ x25519_prefix)) in *.
  destruct (resp_fwd x80 ((be_enc 4 44 ++ x25519_prefix) ++ t) (ce_end E)) as (rc & R & Hsu & Hrc).
  rewrite R. cbn [fst snd]. rewrite Hsu. change (128 <=? b2n x80) with true. cbn [negb].
  rewrite crun_bind, crun_lift. cbn [c_in c_set_in]. rewrite Eq, <- app_assoc.
  assert (P : run (parse_process_resp rc) (p ++ q ++ t) (ce_end E) = (inl ELimit, t)).
  { unfold parse_process_resp. rd. rd.
    change (max_message_size <? be_dec q) with true. reflexivity. }
  rewrite P. cbn [fst snd crun]. eexists. split; [reflexivity|]. cbn. repeat split; congruence.
Qed.

Section Twice.
  Variables (C : Crypto) (CE : cenv) (SE : senv) (hostof : bytes -> option bytes) (chunk : nat -> N) (send : nat -> bytes -> bool)
    (me srv : bytes) (chost : bytes).
  Hypothesis L : CryptoLaws C.
  Hypothesis WC : forall i, ce_deadline CE i = true.
  Hypothesis Hsend : forall i b, lenN b <= 65507 -> send i b = true.
  Hypothesis Hh : hostof me = Some chost.

  Lemma serve_setup id pub ss sn : request_ok (RqSetup id pub) -> wf ss -> n_closed sn = false -> n_in sn = [] ->
    (forall i, exists sk, e_gen SE i = Some sk /\ x_dh C sk pub <> None) -> (forall i, e_store SE i = true) ->
    (forall i m, exists sig, e_sign SE i SHA512 m = KOk sig /\ lenN sig + 54 <= 65507) ->
    exists r sn' ss' i sk shared sig, udp_exchange C SE hostof chunk send (arrive me (enc_request (RqSetup id pub)) sn) ss = (r, (sn', ss')) /\
      n_closed sn' = false /\ n_in sn' = [] /\ left_since sn sn' = [enc_response (RsSetup (x_pub C sk) 4 sig)] /\
      (e_gen SE i = Some sk /\ exists j, e_sign SE j SHA512 (be_enc 4 44 ++ pkix_x25519 pub ++ be_enc 4 44 ++ pkix_x25519 (x_pub C sk) ++ id) = KOk sig) /\
      x_dh C sk pub = Some shared /\ s_calls ss' = s_calls ss /\ wf ss' /\
      known C ss' chost id = Some {| ses_secret := shared; ses_win := new_window |} /\
      forall h i, length i = 16%nat -> (h, i) <> (chost, id) -> known C ss' h i = known C ss h i \/ collision C h i chost id.
  Proof.
    clear WC CE. intros Hok Hwf Hop Hin Hg Hst Hsig. set (q := enc_request _).
    destruct (exchange_flat C SE hostof chunk send (arrive me q sn) ss me q [] Hop ltac:(cbn; rewrite Hin; reflexivity))
      as (r & s1 & l & ok & sn' & ss' & -> & R & Hs1 & Hsent & Hfull & Hin' & Hcl' & Hout).
    set (E := dgram_env SE (hostof me)) in *. set (s0 := set_in ss q) in *.
    assert (WS : writes_all E) by (intros i x; cbn; split; [lia|reflexivity]).
    assert (Hin0 : s_in s0 = q ++ []) by (rewrite app_nil_r; reflexivity).
    assert (Hwf0 : wf s0) by (apply (wf_same ss); auto).
    set (E0 := shift (s_step s0) E).
    assert (Q0 : e_quit E0 (s_step s0) = false) by (cbn [E0 shift e_quit]; rewrite Nat.eqb_refl; reflexivity).
    assert (W0 : writes_all E0) by apply shift_writes, WS.
    pose proof (setup_spec C E0 s0 id pub [] L Hok Hin0 Q0 Hwf0) as PA.
    pose proof (WF_conn C E0 s0 Hwf0) as WF'.
    assert (Hg0 : forall i, e_gen E0 i = e_gen SE (pred i)) by reflexivity.
    assert (Hst0 : forall i, e_store E0 i = e_store SE (pred i)) by reflexivity.
    assert (Hsg0 : forall i, e_sign E0 i = e_sign SE (pred i)) by reflexivity.
    assert (Hh0 : e_host E0 = Some chost) by exact Hh.
    unfold E0 in PA, WF'. rewrite one_request_conn in PA, WF'. fold E0 in PA, WF'.
    rewrite R in PA, WF'. cbn [fst snd] in PA, WF'.
    destruct PA as (_ & Pc & [(h & i & sk & shared & j & sig & Eh & Eg & Ed & Es & [Ek Eo] & _ & A)|[(_ & (c & t & _ & B) & _)|(h & i & sk & shared & j & _ & _ & _ & _ & B)]]).
    2: { exfalso. destruct B as [[_ [[i B]|(i & sk & B1 & B2)]]|[_ [B|[i B]]]].
         - destruct (Hg (pred i)) as (sk & X & _). rewrite Hg0, X in B. discriminate.
         - destruct (Hg (pred i)) as (sk' & X & Y). rewrite Hg0, X in B1. injection B1 as <-. contradiction.
         - rewrite Hh0 in B. discriminate.
         - rewrite Hst0, Hst in B. discriminate. }
    2: { exfalso. destruct B as [(B & _)|(B & _)]; rewrite Hsg0 in B; (match type of B with e_sign SE ?i _ ?m = _ => destruct (Hsig i m) as (sg & X & _) end);
         rewrite X in B; discriminate. }
    rewrite Hh0 in Eh. injection Eh as <-.
    destruct (A W0) as [(kk & Prs) _].
    change (s_sent (tick s1)) with (s_sent s1) in Prs. change (s_sent s0) with (s_sent ss) in Prs.
    set (out := enc_response (RsSetup (x_pub C sk) 4 sig)) in *.
    rewrite Prs in Hsent. apply app_inv_head in Hsent. subst l. inversion Hfull as [|? ? F1 _]. cbn [fst snd] in F1. subst kk.
    pose proof (UdpThms.wire_one out (lenN out) eq_refl) as Ww. rewrite Ww in Hout.
    destruct Hout as [(X & _)|(_ & Hok' & Hout)]; [exfalso; revert X; apply enc_response_ne|].
    rewrite Hsend in Hok'.
    2: { unfold out. pose proof (setup_resp_len (x_pub C sk) sig (x_pub_len C L sk)) as Y. rewrite Hsg0 in Es.
         match type of Es with e_sign SE ?i _ ?m = _ => destruct (Hsig i m) as (sg & X & Hl) end. rewrite X in Es. injection Es as ->. lia. }
    subst ok. exists (Some (r, true)), sn', ss', (pred i), sk, shared, sig. split; [reflexivity|]. split; [exact Hcl'|]. split; [exact Hin'|].
    split; [exact (left_since_one _ _ _ _ Hout)|]. split; [split; [rewrite <- Hg0; exact Eg|exists (pred j); rewrite <- Hsg0; exact Es]|]. split; [exact Ed|].
    assert (X : s_calls ss' = s_calls s1) by (rewrite <- Hs1; reflexivity). split; [rewrite X; exact Pc|].
    split; [apply (wf_same (tick s1)); auto; rewrite <- Hs1; reflexivity|].
    rewrite <- Hs1 in Ek, Eo. split; [exact Ek|exact Eo].
  Qed.

  Lemma serve_wrong_key id c ct hist ss sn sec key : request_ok (RqProcess id c ct true) -> wf ss ->
    known C ss chost id = Some {| ses_secret := sec; ses_win := snd (checks new_window hist) |} ->
    Forall (fun c => c < two64) hist -> ~ refused_after hist c -> new_gcm C sec = Some key ->
    gcm_open C key (gcm_nonce dir_c2s c) ct = None -> n_closed sn = false -> n_in sn = [] ->
    exists r sn' ss', udp_exchange C SE hostof chunk send (arrive me (enc_request (RqProcess id c ct true)) sn) ss = (r, (sn', ss')) /\
      n_closed sn' = false /\ n_in sn' = [] /\ left_since sn sn' = [err2] /\ s_calls ss' = s_calls ss /\ wf ss' /\
      known C ss' chost id = Some {| ses_secret := sec; ses_win := snd (checks new_window (hist ++ [c])) |}.
  Proof.
    intros Hok Hwf Hkn Hhist Hnr K Hno Hop Hin. set (q := enc_request _).
    destruct (exchange_flat C SE hostof chunk send (arrive me q sn) ss me q [] Hop ltac:(cbn; rewrite Hin; reflexivity))
      as (r & s1 & l & ok & sn' & ss' & -> & R & Hs1 & Hsent & Hfull & Hin' & Hcl' & Hout).
    set (E := dgram_env SE (hostof me)) in *. set (s0 := set_in ss q) in *.
    assert (WS : writes_all E) by (intros i x; cbn; split; [lia|reflexivity]).
    assert (Hin0 : s_in s0 = q ++ []) by (rewrite app_nil_r; reflexivity).
    assert (Hwf0 : wf s0) by (apply (wf_same ss); auto).
    set (E0 := shift (s_step s0) E).
    assert (Q0 : e_quit E0 (s_step s0) = false) by (cbn [E0 shift e_quit]; rewrite Nat.eqb_refl; reflexivity).
    pose proof (process_unauthentic_text C E0 s0 chost id ct [] c true Hok Hin0 Q0 Hh _ hist Hkn Hhist eq_refl Hwf0 Hnr key K Hno) as PA.
    pose proof (WF_conn C E0 s0 Hwf0) as WF'.
    unfold E0 in PA, WF'. rewrite one_request_conn in PA, WF'. fold E0 in PA, WF'.
    rewrite R in PA, WF'. cbn [fst snd] in PA, WF'.
    destruct PA as ((kk & Prs) & Pc & [Ps _] & _ & _).
    change (s_sent (tick s1)) with (s_sent s1) in Prs. change (s_sent s0) with (s_sent ss) in Prs.
    change (enc_response (RsError code_server_error msg_decrypt)) with err2 in Prs.
    rewrite Prs in Hsent. apply app_inv_head in Hsent. subst l. inversion Hfull as [|? ? F1 _]. cbn [fst snd] in F1. subst kk.
    pose proof (UdpThms.wire_one err2 (lenN err2) eq_refl) as Ww. rewrite Ww in Hout.
    destruct Hout as [(X & _)|(_ & Hok' & Hout)]; [exfalso; revert X; apply enc_response_ne|].
    rewrite Hsend in Hok' by apply err2_len. subst ok.
    do 3 eexists. split; [reflexivity|]. split; [exact Hcl'|]. split; [exact Hin'|]. split; [exact (left_since_one _ _ _ _ Hout)|].
    assert (X : s_calls ss' = s_calls s1) by (rewrite <- Hs1; reflexivity). split; [rewrite X; exact Pc|].
    split; [apply (wf_same (tick s1)); auto; rewrite <- Hs1; reflexivity|]. rewrite <- Hs1 in Ps. exact Ps.
  Qed.

  (** A datagram that Read makes an error of. *)
  Definition useless (d : bytes) : Prop := d = err2 \/ exists t, d = setup_head ++ t.
  Lemma read_useless o ses n u net s d q : useless d -> udp_client u -> u_read u = false -> n_closed net = false ->
    n_in net = map (pair srv) (d :: q) -> c_buf s = [] ->
    exists e u' net' s', ucrun C CE chunk send (client_read C o ses n) (u, net) s = (Some (RdErr e), ((u', net'), s')) /\
      udp_client u' /\ n_closed net' = false /\ n_in net' = map (pair srv) q /\ c_buf s' = [] /\ c_ctr s' = c_ctr s.
  Proof.
    intros Hd Hu Hr Hc Hin Hb.
    assert (X : exists e s1, crun C (eof_env CE) (client_read C o ses n) (c_set_in s d) = (Some (RdErr e), s1) /\ c_in s1 <> d /\ c_buf s1 = [] /\ c_ctr s1 = c_ctr s).
    { destruct Hd as [->|(t & ->)].
      - destruct (any_error_run_last C (eof_env CE) o ses n (c_set_in s err2) 2 msg_decrypt [] (eof_works CE WC) Hb err2_ok)
          as (s1 & R & R1 & R2 & R3 & R4 & R5); [symmetry; apply app_nil_r|]. eexists _, s1. split; [exact R|]. rewrite R1. repeat split; auto. discriminate.
      - destruct (read_setup C (eof_env CE) o ses n (c_set_in s (setup_head ++ t)) t (eof_works CE WC) Hb eq_refl) as (s1 & R & R1 & R2 & R3 & R4).
        eexists _, s1. split; [exact R|]. rewrite R1. repeat split; auto. intro Y. apply (f_equal (@length byte)) in Y. rewrite app_length in Y. cbn in Y. lia. }
    destruct X as (e & s1 & R & Ri & Rb & Rc).
    assert (Hh1 : holds u net d (map (pair srv) q)) by (right; split; [exact Hr|]; split; [exact Hc|]; exists srv; exact Hin).
    pose proof (ucrun_flat C CE chunk send _ _ (nowrite_read C o ses n) u net s _ _ Hh1) as F. rewrite R in F.
    destruct F as (u2 & n2 & s2 & -> & E3 & H3 & (R1 & R2 & R3 & R4 & R5) & D3).
    destruct H3 as [(X1 & X2 & X3)|(X & _ & _)]; [|exfalso; apply Ri, D3, X].
    rewrite E3 in Rb, Rc. cbn [c_set_in c_ctr c_buf] in Rb, Rc. exists e, u2, n2, s2. rewrite R2. auto 10.
  Qed.

  Lemma never_again o ses n id key1 sec2 key2 : cs_id ses = id -> length id = 16%nat -> co_reply o = true ->
    client_gcm C (cs_secret ses) = Some key1 -> new_gcm C sec2 = Some key2 ->
    forall ps hist old cs u net sn ss,
    wf ss -> known C ss chost id = Some {| ses_secret := sec2; ses_win := snd (checks new_window hist) |} ->
    Forall (fun c => c < two64) hist -> Forall (fun c => c <= c_ctr cs) hist -> c_buf cs = [] -> Forall useless old ->
    udp_client u -> n_closed net = false -> n_in net = map (pair srv) old -> n_closed sn = false -> n_in sn = [] ->
    c_ctr cs + lenN ps < two64 -> Forall (fun p => lenN p + 50 <= 65507) ps ->
    Forall (fun x => let '(c, _, p) := x in gcm_open C key2 (gcm_nonce dir_c2s c) (gcm_seal C key1 (gcm_nonce dir_c2s c) p) = None) (numbered (c_ctr cs + 1) true ps) ->
    let '(res, (_, (_, ss'))) := lossy C CE SE hostof chunk send me srv o ses n (map (fun p => (p, Arrives, 0%nat)) ps) (u, net) cs sn ss in
    length res = length ps /\ Forall (fun r => exists e, r = [Some (RdErr e)]) res /\ s_calls ss' = s_calls ss.
  Proof.
    intros Hid Hl Ho K1 K2. induction ps as [|p ps IH]; intros hist old cs u net sn ss Hwf Hkn Hhist Hle Hb Hold Hu Hc Hin Hcs Hins Hlt Hp Hno; cbn [map lossy].
    { auto. }
    rewrite lenN_cons in Hlt. inversion Hp as [|? ? Hp1 Hp2]; subst. inversion Hno as [|? ? Hno1 Hno2]; subst.
    destruct (lossy_write C CE chunk send o ses L WC Hsend Ho p u net cs key1 Hu Hc Hl K1 ltac:(lia) Hp1) as (w & u1 & net1 & c1 & -> & U1 & U2 & U3 & U4 & U5 & U6 & U7 & U8).
    cbn [snd]. rewrite (left_since_one _ _ _ _ U5). set (c := c_ctr cs + 1) in *. cbn [serve_lossy arrive_all fold_left].
    assert (Hrq : request_ok (RqProcess (cs_id ses) c (gcm_seal C key1 (gcm_nonce dir_c2s c) p) true)).
    { split; [exact Hl|]. split; [unfold c, two64 in *; lia|]. rewrite (gcm_seal_len _ L). unfold max_message_size. lia. }
    destruct (serve_wrong_key (cs_id ses) c _ hist ss sn sec2 key2 Hrq Hwf Hkn Hhist (next_not_refused _ _ Hle) K2 Hno1 Hcs Hins)
      as (r & sn1 & s1 & RS & S1 & S2 & S3 & S4 & S5 & S6). rewrite RS, S3. cbn [udp_reads fold_left]. rewrite Hb in U8.
    assert (Q : exists d q, old ++ [err2] = d :: q /\ useless d /\ Forall useless q).
    { assert (F : Forall useless (old ++ [err2])) by (apply Forall_app; split; [exact Hold|constructor; [left; reflexivity|constructor]]).
      destruct (old ++ [err2]) as [|d q] eqn:Y; [destruct old; discriminate|]. inversion F; subst. eauto. }
    destruct Q as (d & q & Eq & Hd & Hq).
    destruct (read_useless o ses n u1 (arrive_all srv [err2] net1) c1 d q Hd U1 U2) as (e & u2 & net2 & c2 & RR & V1 & V2 & V3 & V4 & V5).
    { exact U4. }
    { rewrite arrive_all_in, U3, Hin, <- Eq, map_app. reflexivity. }
    { exact U8. }
    change (fold_left (fun n d => arrive srv d n) [err2] net1) with (arrive_all srv [err2] net1). rewrite RR.
    specialize (IH (hist ++ [c]) q c2 u2 net2 sn1 s1 S5 S6).
    destruct (lossy C CE SE hostof chunk send me srv o ses n (map (fun p => (p, Arrives, 0%nat)) ps) (u2, net2) c2 sn1 s1) as [res [z [sn2 s2]]].
    destruct IH as (I1 & I2 & I3); auto.
    { apply Forall_app. split; [exact Hhist|]. constructor; [unfold c; lia|constructor]. }
    { rewrite V5, U6. apply Forall_app. split; [|constructor; [unfold c; lia|constructor]]. eapply Forall_impl; [|exact Hle]. cbn. unfold c. intros; lia. }
    { rewrite V5, U6. unfold c. lia. }
    { rewrite V5, U6. exact Hno2. }
    split; [cbn; rewrite I1; reflexivity|]. split; [constructor; [eauto|exact I2]|]. rewrite I3. exact S4.
  Qed.

  (** What the server answers a Setup request with. *)
  Definition answer (x : bytes * bytes) : bytes := enc_response (RsSetup (x_pub C (fst x)) 4 (snd x)).

  Lemma serve_setups id pub : request_ok (RqSetup id pub) ->
    (forall i, exists sk, e_gen SE i = Some sk /\ x_dh C sk pub <> None) -> (forall i, e_store SE i = true) ->
    (forall i m, exists sig, e_sign SE i SHA512 m = KOk sig /\ lenN sig + 54 <= 65507) ->
    forall k ss sn, wf ss -> n_closed sn = false -> n_in sn = [] ->
    let '(out, (sn', ss')) := serve_each C SE hostof chunk send me (repeat (enc_request (RqSetup id pub)) k) sn ss in
    exists l, out = map answer l /\ length l = k /\ n_closed sn' = false /\ n_in sn' = [] /\ wf ss' /\ s_calls ss' = s_calls ss /\
      Forall (fun x => (exists i, e_gen SE i = Some (fst x)) /\ exists j, e_sign SE j SHA512 (be_enc 4 44 ++ pkix_x25519 pub ++ be_enc 4 44 ++ pkix_x25519 (x_pub C (fst x)) ++ id) = KOk (snd x)) l /\
      (forall l' x, l = l' ++ [x] -> exists shared, x_dh C (fst x) pub = Some shared /\
        known C ss' chost id = Some {| ses_secret := shared; ses_win := new_window |}) /\
      forall h i, length i = 16%nat -> (h, i) <> (chost, id) -> known C ss' h i = known C ss h i \/ collision C h i chost id.
  Proof.
    clear WC CE. intros Hok Hg Hst Hsig. induction k as [|k IH]; intros ss sn Hwf Hc Hin; cbn [repeat serve_each].
    { exists []. do 7 (split; [solve [auto]|]). split; [intros l' x X; destruct l'; discriminate|auto]. }
    destruct (serve_setup id pub ss sn Hok Hwf Hc Hin Hg Hst Hsig) as (r & sn1 & s1 & i & sk & shared & sig & -> & A1 & A2 & A3 & A4 & A5 & A6 & A7 & A8 & A9).
    specialize (IH s1 sn1 A7 A1 A2).
    assert (Z : k = 0%nat -> snd (snd (serve_each C SE hostof chunk send me (repeat (enc_request (RqSetup id pub)) k) sn1 s1)) = s1) by (intros ->; reflexivity).
    destruct (serve_each _ _ _ _ _ _ _ sn1 s1) as [out [sn2 s2]]. cbn [snd] in Z.
    destruct IH as (l & -> & B1 & B2 & B3 & B4 & B5 & B6 & B7 & B8). exists ((sk, sig) :: l). rewrite A3.
    split; [reflexivity|]. split; [cbn; congruence|]. split; [exact B2|]. split; [exact B3|]. split; [exact B4|]. split; [congruence|].
    split; [constructor; [split; [exists i; apply A4|apply A4]|exact B6]|]. split.
    - intros l' x E. destruct l' as [|y l'].
      + cbn [app] in E. assert (E1 : (sk, sig) = x /\ l = []) by (split; congruence). destruct E1 as [<- ->]. exists shared. split; [exact A5|].
        rewrite Z by (symmetry; exact B1). exact A8.
      + cbn [app] in E. eapply B7. assert (E1 : l = l' ++ [x]) by congruence. exact E1.
    - intros h i' H1 H2. destruct (B8 h i' H1 H2) as [X|X]; [rewrite X; apply A9; assumption|right; exact X].
  Qed.

  Lemma answer_useless x : useless (answer x).
  Proof. right. apply setup_resp_head, (x_pub_len C L). Qed.

  Lemma setup_twice id csk ss sn k : let pub := x_pub C csk in request_ok (RqSetup id pub) ->
    (forall i, exists sk, e_gen SE i = Some sk /\ x_dh C sk pub <> None) -> (forall i, e_store SE i = true) ->
    (forall i m, exists sig, e_sign SE i SHA512 m = KOk sig /\ lenN sig + 54 <= 65507) ->
    wf ss -> n_closed sn = false -> n_in sn = [] ->
    let '(out, (sn1, ss1)) := serve_each C SE hostof chunk send me (repeat (enc_request (RqSetup id pub)) (S (S k))) sn ss in
    exists x l y, out = map answer (x :: l ++ [y]) /\ length l = k /\ s_calls ss1 = s_calls ss /\
    forall o ses n key1 sec2 key2 ps cs u net late, co_reply o = true -> cs_id ses = id ->
    x_dh C csk (x_pub C (fst x)) = Some (cs_secret ses) -> client_gcm C (cs_secret ses) = Some key1 ->
    x_dh C csk (x_pub C (fst y)) = Some sec2 -> new_gcm C sec2 = Some key2 ->
    c_buf cs = [] -> udp_client u -> n_closed net = false -> n_in net = map (fun x => (srv, answer x)) late ->
    (forall x, In x late -> In x (l ++ [y])) -> c_ctr cs + lenN ps < two64 -> Forall (fun p => lenN p + 50 <= 65507) ps ->
    Forall (fun x => let '(c, _, p) := x in gcm_open C key2 (gcm_nonce dir_c2s c) (gcm_seal C key1 (gcm_nonce dir_c2s c) p) = None) (numbered (c_ctr cs + 1) true ps) ->
    let '(res, (_, (_, ss2))) := lossy C CE SE hostof chunk send me srv o ses n (map (fun p => (p, Arrives, 0%nat)) ps) (u, net) cs sn1 ss1 in
    length res = length ps /\ Forall (fun r => exists e, r = [Some (RdErr e)]) res /\ s_calls ss2 = s_calls ss.
  Proof.
    cbv zeta. intros Hok Hg Hst Hsig Hwf Hc Hin. pose proof (serve_setups id _ Hok Hg Hst Hsig (S (S k)) ss sn Hwf Hc Hin) as S.
    destruct (serve_each _ _ _ _ _ _ _ sn ss) as [out [sn1 s1]]. destruct S as (l0 & -> & S1 & S2 & S3 & S4 & S5 & S6 & S7 & S8).
    destruct l0 as [|x l0]; [discriminate|]. destruct (@exists_last _ l0) as (l & y & ->); [destruct l0; discriminate|].
    exists x, l, y. split; [reflexivity|]. split; [cbn in S1; rewrite app_length in S1; cbn in S1; lia|]. split; [exact S5|].
    intros o ses n key1 sec2 key2 ps cs u net late Ho Hid D1 K1 D2 K2 Hb Hu Hcn Hn Hlate Hlt Hp Hno.
    destruct (S7 (x :: l) y eq_refl) as (sh & Dy & Ky). rewrite (x_dh_comm C L) in Dy. rewrite D2 in Dy. injection Dy as <-.
    pose proof (never_again o ses n id key1 sec2 key2 Hid (proj1 Hok) Ho K1 K2 ps [] (map answer late) cs u net sn1 s1 S4 Ky) as N.
    destruct (lossy _ _ _ _ _ _ _ _ _ _ _ _ _ _ sn1 s1) as [res [z [sn2 s2]]].
    destruct N as (N1 & N2 & N3); auto.
    { apply Forall_forall. intros d Hd. apply in_map_iff in Hd as (a & <- & _). apply answer_useless. }
    { rewrite map_map. exact Hn. }
    split; [exact N1|]. split; [exact N2|]. congruence.
  Qed.

  Lemma setup_copies id csk ss sn k : let pub := x_pub C csk in request_ok (RqSetup id pub) ->
    (forall i, exists sk, e_gen SE i = Some sk /\ x_dh C sk pub <> None) -> (forall i, e_store SE i = true) ->
    (forall i m, exists sig, e_sign SE i SHA512 m = KOk sig /\ lenN sig + 54 <= 65507) ->
    wf ss -> n_closed sn = false -> n_in sn = [] ->
    let '(out, (sn1, ss1)) := serve_each C SE hostof chunk send me (repeat (enc_request (RqSetup id pub)) (S k)) sn ss in
    exists l x, out = map answer (l ++ [x]) /\ length l = k /\ n_closed sn1 = false /\ n_in sn1 = [] /\ s_calls ss1 = s_calls ss /\
    (forall ses cs, cs_id ses = id -> x_dh C csk (x_pub C (fst x)) = Some (cs_secret ses) -> c_buf cs = [] -> paired C ses chost [] cs ss1) /\
    forall h i, length i = 16%nat -> (h, i) <> (chost, id) -> known C ss1 h i = known C ss h i \/ collision C h i chost id.
  Proof.
    clear WC CE. cbv zeta. intros Hok Hg Hst Hsig Hwf Hc Hin. pose proof (serve_setups id _ Hok Hg Hst Hsig (S k) ss sn Hwf Hc Hin) as S.
    destruct (serve_each _ _ _ _ _ _ _ sn ss) as [out [sn1 s1]]. destruct S as (l0 & -> & S1 & S2 & S3 & S4 & S5 & S6 & S7 & S8).
    destruct (@exists_last _ l0) as (l & y & ->); [destruct l0; discriminate|].
    exists l, y. split; [reflexivity|]. split; [rewrite app_length in S1; cbn in S1; lia|]. do 3 (split; [assumption|]). split; [|exact S8].
    intros ses cs Hid D1 Hb. destruct (S7 l y eq_refl) as (sh & Dy & Ky). rewrite (x_dh_comm C L), D1 in Dy. injection Dy as <-.
    split; [exact S4|rewrite Hid; exact (proj1 Hok)|rewrite Hid; exact Ky|constructor|exact Hb].
  Qed.
End Twice.
