(** Messages and replies above the limit of 2^30 octets. *)
From Verif Require Import Bytes BytesProofs Parser ParserProofs Crypto Kdf Wire WireProofs WireSeq Replay SpecReplay Server ServerSeq SpecServer ServerProofs ServerProps ServerProps2 ServerProps3
  SpecMalformed MalformedProofs Keys Client ClientSeq SpecClient SpecE2E ClientProofs ClientProps E2EProofs.

Lemma be_inj8 a b x y : a < 2 ^ 64 -> b < 2 ^ 64 -> be_enc 8 a ++ x = be_enc 8 b ++ y -> a = b.
Proof.
  intros A B T. apply app_inj_len in T; [|rewrite !be_enc_length; reflexivity]. destruct T as [T _].
  apply (f_equal be_dec) in T. rewrite !be_dec_enc_small in T by (rewrite pow256_8; assumption). exact T.
Qed.

Lemma over_not_body id c ct reply rest : length id = 16%nat -> 2 ^ 30 < lenN ct -> lenN ct < 2 ^ 64 ->
  exists b i, enc_request (RqProcess id c ct reply) ++ rest = b :: i /\ b2n b / 16 = 1 /\ b2n b mod 16 = 3 /\ ~ process_body i.
Proof.
  intros Hid Hb Hl. exists (n2b (version1 * 16 + action_process)).
  cbn [enc_request]. unfold enc_process_req, new_process_request, pr_id, pr_counter, pr_size, pr_msg, pr_common.
  match goal with |- exists i, (enc_req_common ?x ++ [?f] ++ ?r) ++ rest = _ /\ _ => exists (f :: r ++ rest) end.
  split; [reflexivity|]. split; [reflexivity|]. split; [reflexivity|].
  intros (fb & id' & ctr & msg & rest' & T & L1 & L2 & L3). apply (f_equal (@tl byte)) in T. cbn [tl] in T.
  rewrite <- !app_assoc in T. apply app_inj_len in T; [|congruence]. destruct T as [_ T].
  apply app_inj_len in T; [|rewrite be_enc_length; congruence]. destruct T as [_ T].
  apply be_inj8 in T; lia.
Qed.

Lemma over_resp rc c ct s e : c < two64 -> max_message_size < lenN ct -> lenN ct < two64 ->
  run (parse_process_resp rc) (be_enc 8 c ++ be_enc 8 (lenN ct) ++ ct ++ s) e = (inl ELimit, ct ++ s).
Proof.
  intros Hc Hm Hl. unfold parse_process_resp. rd. rd.
  rewrite be_dec_enc_small by (rewrite pow256_8; assumption). destruct (N.ltb_spec max_message_size (lenN ct)); [reflexivity|lia].
Qed.
Lemma over_read C E o ses n s c ct rest : c_works E -> c_buf s = [] -> c < two64 -> max_message_size < lenN ct -> lenN ct < two64 ->
  c_in s = enc_response (RsProcess c ct) ++ rest ->
  exists s', crun C E (client_read C o ses n) s = (Some (RdErr (RdParse ELimit)), s') /\ c_in s' = ct ++ rest /\ c_buf s' = [] /\ c_ctr s' = c_ctr s.
Proof.
  intros W Hb Hc Hm Hl Hin. change (client_read C o ses n) with
    (cbind (if co_rto o then cdo CDeadline else CRet true) (read_after_deadline C ses n)).
  destruct (deadline_ok C E W (co_rto o) (read_after_deadline C ses n) s) as (s1 & -> & Hi & Hs & Hc1 & Hll & Hbf & Hse).
  unfold read_after_deadline. cbn [negb]. rewrite crun_do. cbn [cexec fst snd]. rewrite Hbf, Hb.
  change (0 <? lenN []) with false. cbv iota. rewrite crun_bind, crun_lift, Hi, Hin.
  change (enc_response (RsProcess c ct)) with (x80 :: be_enc 8 c ++ be_enc 8 (lenN ct) ++ ct).
  destruct (resp_fwd x80 ((be_enc 8 c ++ be_enc 8 (lenN ct) ++ ct) ++ rest) (ce_end E)) as (rc & R & Hsu & Hrc).
  cbn [app] in R |- *. rewrite R. cbn [fst snd]. rewrite Hsu. change (128 <=? b2n x80) with true. cbn [negb].
  rewrite crun_bind, crun_lift. cbn [c_in c_set_in]. rewrite <- !app_assoc, (over_resp rc c ct rest) by assumption.
  cbn [fst snd crun]. eexists. split; [reflexivity|]. cbn. repeat split; congruence.
Qed.

Section Long.
  Variables (C : Crypto) (CE : cenv) (SE : senv) (o : copts) (chost : bytes).
  Hypothesis L : CryptoLaws C.
  Hypothesis WC : c_works CE.
  Hypothesis WS : writes_all SE.
  Hypothesis Q : forall i, e_quit SE i = false.
  Hypothesis Hh : e_host SE = Some chost.

  Lemma long_message ses cs ss p n : length (cs_id ses) = 16%nat -> c_ctr cs + 1 < 2 ^ 64 ->
    2 ^ 30 < lenN p + 16 -> lenN p + 16 < 2 ^ 64 ->
    let '(w, r, cs', ss') := round C CE SE o ses p n cs ss in
    w = Some (WrConn (lenN p + 50) false) /\ no_calls ss ss' /\ same_sessions C ss ss' /\ exists t, responded ss ss' (RsError 1 t).
  Proof.
    intros Hid Hc Hp1 Hp2. destruct (client_gcm_some C L (cs_secret ses)) as (key & K).
    unfold round. pose proof (write_ok_run C L CE o ses p cs key WC K) as W.
    pose proof (write_len C L CE o ses p cs WC Hid) as WL.
    destruct (crun C CE (client_write C o ses p) cs) as [w c1]. cbv zeta in W.
    rewrite N.mod_small in W by exact Hc. set (c := c_ctr cs + 1) in *.
    destruct W as (Wc & Wi & Wb & [(W0 & _)|(_ & Wl & _ & -> & Ws)]); [unfold c in W0; lia|].
    destruct (WL _ _ _ eq_refl) as [WL' _]. rewrite WL'.
    set (ct := gcm_seal C key (gcm_nonce dir_c2s c) p) in *.
    set (q := enc_request (RqProcess (cs_id ses) c ct (co_reply o))) in *.
    assert (Sq : sent_by_client cs c1 = q).
    { unfold sent_by_client. rewrite Ws, skipn_app_exact. unfold wire. cbn [map concat fst snd]. rewrite app_nil_r. apply takeN_all. }
    rewrite Sq.
    assert (Lct : lenN ct = lenN p + 16) by apply (gcm_seal_len _ L).
    destruct (over_not_body (cs_id ses) c ct (co_reply o) [] Hid) as (b & i & Eq & B1 & B2 & NB); [lia..|].
    rewrite app_nil_r in Eq. fold q in Eq.
    pose proof (malformed C SE (set_in ss q) b i (Q _) Eq B1 (or_introl (conj B2 NB))) as M.
    destruct (srun C SE (conn_body C) (set_in ss q)) as [res ss'] eqn:R. destruct M as (M1 & M2 & M3 & _).
    destruct (crun C CE (client_read C o ses n) (c_set_in c1 (sent_by_server ss ss'))) as [r c2].
    split; [reflexivity|]. split; [exact M2|]. split; [exact M3|exact M1].
  Qed.

  Lemma long_reply ses hist cs ss p n : co_reply o = true -> paired C ses chost hist cs ss -> c_ctr cs + 1 < 2 ^ 64 ->
    ~ refused_after hist (c_ctr cs + 1) -> lenN p + 16 <= 2 ^ 30 ->
    (forall i, exists out, e_handler SE i true p = HOk out /\ 2 ^ 30 < lenN out + 16 /\ lenN out + 16 < 2 ^ 64) ->
    let '(w, r, cs', ss') := round C CE SE o ses p n cs ss in
    w = Some (WrConn (lenN p + 50) false) /\ (exists ptr, s_calls ss' = s_calls ss ++ [(ptr, c_ctr cs + 1, true, p)]) /\
    r = Some (RdErr (RdParse ELimit)) /\ c_in cs' <> [].
  Proof.
    intros Ho [Hwf Hid Hkn Hhist Hbuf] Hc Hnr Hp HH.
    destruct (client_gcm_some C L (cs_secret ses)) as (key & K).
    unfold round. pose proof (write_ok_run C L CE o ses p cs key WC K) as W.
    pose proof (write_len C L CE o ses p cs WC Hid) as WL.
    destruct (crun C CE (client_write C o ses p) cs) as [w c1]. cbv zeta in W.
    rewrite N.mod_small in W by exact Hc. set (c := c_ctr cs + 1) in *.
    destruct W as (Wc & Wi & Wb & [(W0 & _)|(_ & Wl & _ & -> & Ws)]); [unfold c in W0; lia|].
    destruct (WL _ _ _ eq_refl) as [WL' _]. rewrite WL'.
    set (ct := gcm_seal C key (gcm_nonce dir_c2s c) p) in *. rewrite Ho in *.
    set (q := enc_request (RqProcess (cs_id ses) c ct true)) in *.
    assert (Sq : sent_by_client cs c1 = q).
    { unfold sent_by_client. rewrite Ws, skipn_app_exact. unfold wire. cbn [map concat fst snd]. rewrite app_nil_r. apply takeN_all. }
    rewrite Sq.
    assert (Hok : request_ok (RqProcess (cs_id ses) c ct true)).
    { split; [exact Hid|]. split; [exact Hc|]. unfold ct. rewrite (gcm_seal_len _ L). exact Hp. }
    assert (Hwf' : wf (set_in ss q)) by (apply (wf_same ss); auto).
    pose proof (process_accepted C SE (set_in ss q) chost (cs_id ses) ct [] c true Hok) as PA.
    specialize (PA ltac:(cbn [set_in s_in]; rewrite app_nil_r; reflexivity) (Q _) Hh).
    specialize (PA _ hist Hkn Hhist eq_refl Hwf' Hnr key (eq_trans (eq_sym (client_server_gcm C _)) K) p (gcm_open_seal _ L _ _ _)).
    destruct (srun C SE (conn_body C) (set_in ss q)) as [res ss'] eqn:R.
    destruct PA as ((ptr & Pc) & _ & _ & i & Pr).
    destruct (HH i) as (out & Eo & O1 & O2). rewrite Eo in Pr. cbv zeta in Pr. destruct Pr as [_ Pr].
    destruct (Pr WS) as [Prs _].
    rewrite (responded_wire C SE _ _ _ _ _ _ WS R Prs).
    set (rc := gcm_seal C key (gcm_nonce dir_s2c c) out) in *.
    assert (Lrc : lenN rc = lenN out + 16) by apply (gcm_seal_len _ L).
    destruct (over_read C CE o ses n (c_set_in c1 (enc_response (RsProcess c rc))) c rc [] WC) as (c2 & -> & I2 & _).
    - cbn [c_set_in c_buf]. congruence.
    - exact Hc.
    - unfold max_message_size. lia.
    - unfold two64. lia.
    - cbn [c_set_in c_in]. rewrite app_nil_r. reflexivity.
    - split; [reflexivity|]. split; [exists ptr; exact Pc|]. split; [reflexivity|].
      rewrite I2, app_nil_r. intros Z. rewrite Z in Lrc. cbn in Lrc. lia.
  Qed.
End Long.
