(** A whole conversation of the two parties. *)
From Verif Require Import Bytes BytesProofs Parser ParserProofs Crypto Kdf Wire WireProofs WireSeq WireExtra Replay SpecReplay
  ReplayProofs Server ServerSeq SpecServer ServerProofs ServerProps ServerProps2 ServerProps3 MultiConn SpecMulti Keys KeysProofs
  Client ClientSeq SpecClient ClientProofs SpecE2E E2EProofs System SpecSystem Kahn Duo.

Section Touch.
Variables (C : Crypto) (SE : senv) (P : bytes -> Prop).
Notation touches := (touches C SE P).

Lemma touch_error b s : touches (write_error_response b) s.
Proof.
  unfold write_error_response, sdo. cbn [sbind Duo.touches]. split; [discriminate|].
  destruct (fst (sexec C SE (SWrite b) s)) as [n [e|]]; exact I.
Qed.
Lemma touch_response b s : touches (write_response b) s.
Proof.
  unfold write_response, sdo. cbn [sbind Duo.touches]. split; [discriminate|].
  destruct (fst (sexec C SE (SWrite b) s)) as [n [[|]|]]; try exact I. destruct (0 <? n); [exact I|apply touch_error].
Qed.

Lemma touch_setup h m s : e_host SE = Some h -> P (session_key C h (sr_id m)) -> touches (setup_after C m) s.
Proof.
  intros Hh HP. unfold setup_after, sdo. cbn [sbind Duo.touches]. split; [discriminate|].
  destruct (fst (sexec C SE SGenKey s)) as [sk|]; [|apply touch_error].
  destruct (x_dh C sk (sr_pub m)) as [shared|]; [|apply touch_error].
  cbn [sbind Duo.touches]. split; [discriminate|]. cbn [sexec fst snd]. rewrite Hh.
  cbn [sbind Duo.touches]. split; [discriminate|].
  cbn [sexec fst snd]. split; [cbn [key_of]; intros key E; injection E as <-; exact HP|].
  match goal with |- Duo.touches _ _ _ (if negb ?b then _ else _) _ => destruct b end; cbn [negb]; [|apply touch_error].
  cbn [sbind Duo.touches]. split; [discriminate|].
  match goal with |- Duo.touches _ _ _ (match ?b with KOk _ => _ | _ => _ end) _ => destruct b end; [|apply touch_error|exact I].
  destruct (new_hash_type SHA512); [apply touch_response|exact I].
Qed.

Lemma touch_process h m s : e_host SE = Some h -> P (session_key C h (pr_id m)) -> touches (process_after C m) s.
Proof.
  intros Hh HP. unfold process_after, sdo. cbn [sbind Duo.touches]. split; [discriminate|].
  cbn [sexec fst snd]. rewrite Hh.
  cbn [sbind Duo.touches]. split; [cbn [key_of]; intros key E; injection E as <-; exact HP|].
  cbn [sexec fst snd]. destruct (s_map s (session_key C h (pr_id m))) as [p|]; [|apply touch_error].
  cbn [sbind Duo.touches]. split; [discriminate|].
  match goal with |- Duo.touches _ _ _ (if negb ?b then _ else _) _ => destruct b end; cbn [negb]; [|apply touch_error].
  cbn [sbind Duo.touches]. split; [discriminate|]. cbn [fst snd].
  match goal with |- Duo.touches _ _ _ (match ?b with Some _ => _ | None => _ end) _ => destruct b end; [|apply touch_error].
  match goal with |- Duo.touches _ _ _ (match ?b with Some _ => _ | None => _ end) _ => destruct b end; [|apply touch_error].
  cbn [sbind Duo.touches]. split; [discriminate|].
  match goal with |- Duo.touches _ _ _ (match ?b with HOk _ => _ | _ => _ end) _ => destruct b end; [|apply touch_error|exact I].
  destruct (pr_reply m); [|exact I].
  cbn [sbind Duo.touches]. split; [discriminate|]. apply touch_response.
Qed.

Lemma touch_body s r rest : request_ok r -> s_in s = enc_request r ++ rest -> e_quit SE (s_step s) = false ->
  touches (after C r) (set_in (tick s) rest) -> touches (conn_body C) s.
Proof.
  intros Hr Hin Hq HT. unfold conn_body. apply touches_bind. split; [cbn; split; [discriminate|exact I]|].
  cbn [sdo srun sexec]. rewrite Hq. cbn iota.
  unfold one_request. apply touches_bind. split; [apply touches_lift|]. rewrite srun_lift.
  change (s_in (tick s)) with (s_in s). rewrite Hin.
  destruct r as [| |id pub|id ctr msg reply]; cbn [enc_request request_ok after enc_response] in *.
  - rewrite req_common_rt by (split; reflexivity). cbn [fst snd]. exact HT.
  - rewrite req_common_rt by (split; reflexivity). cbn [fst snd]. exact HT.
  - destruct Hr as [Hid Hp]. unfold enc_setup_req. rewrite <- app_assoc, req_common_rt by (split; reflexivity).
    cbn [fst snd]. unfold handle. cbn [new_setup_request sr_common rq_version rq_action].
    change (version1 =? version1) with true. change (action_setup =? action_hello) with false.
    change (action_setup =? action_setup) with true. cbn iota.
    unfold setup_handler. apply touches_bind. split; [apply touches_lift|]. rewrite srun_lift. cbn [set_in s_in].
    assert (Hok : setup_req_ok (new_setup_request id pub)).
    { constructor; auto. split; reflexivity. }
    pose proof (setup_req_rt_body C (new_setup_request id pub) rest (e_end SE) Hok) as Q.
    cbn [new_setup_request sr_common sr_id sr_pub] in *. rewrite <- !app_assoc, Q. exact HT.
  - destruct Hr as (Hid & Hc & Hm). unfold enc_process_req. rewrite <- app_assoc, req_common_rt by (split; reflexivity).
    cbn [fst snd]. unfold handle. cbn [new_process_request pr_common rq_version rq_action].
    change (version1 =? version1) with true. change (action_process =? action_hello) with false.
    change (action_process =? action_setup) with false.
    change (action_process =? action_process) with true. cbn iota.
    unfold process_handler. apply touches_bind. split; [apply touches_lift|]. rewrite srun_lift. cbn [set_in s_in].
    assert (Hok : process_req_ok (new_process_request id ctr msg reply)).
    { constructor; auto; try reflexivity. split; reflexivity. }
    pose proof (process_req_rt_body (new_process_request id ctr msg reply) rest (e_end SE) Hok) as Q.
    unfold process_flags in Q.
    cbn [new_process_request pr_common pr_reply pr_reserved pr_id pr_counter pr_size pr_msg] in *.
    rewrite <- !app_assoc. cbn [app]. rewrite Q. exact HT.
Qed.
End Touch.

Lemma feed_last {s : cst} {x i} : c_in (c_feed s [x]) = i ++ [x] -> c_in s = i.
Proof. cbn. intros H. apply app_inv_tail in H. exact H. Qed.
Lemma sfeed_last {s : sst} {x i} : s_in (s_feed s [x]) = i ++ [x] -> s_in s = i.
Proof. cbn. intros H. apply app_inv_tail in H. exact H. Qed.

Section Run.
  Variables (C : Crypto) (CE : cenv) (SE : senv) (o : copts) (chost : bytes) (A : Type).
  Hypothesis L : CryptoLaws C.
  Hypothesis WC : c_works CE.
  Hypothesis WS : writes_all SE.
  Hypothesis Q : forall i, e_quit SE i = false.
  Hypothesis Hh : e_host SE = Some chost.
  Notation path := (path (duo A) (option bytes) (go_c C CE A) (go_s C SE A) uses).

  Record linked (ses : csession) (hist : list N) (cs : cst) (ss : sst) : Prop := {
    li_paired : paired C ses chost hist cs ss;
    li_hist : Forall (fun c => c <= c_ctr cs) hist;
    li_cin : c_in cs = [];
    li_sin : s_in ss = [] }.

  (** One message. *)
  Lemma round_path ses hist cs ss p n f (F : cprog (list rd_result) -> cprog A) ps :
    (forall R (e : ceff R) k, F (CDo e k) = CDo e (fun r => F (k r))) ->
    linked ses hist cs ss -> c_ctr cs + 1 < 2 ^ 64 -> lenN p + 16 <= 2 ^ 30 ->
    (forall i, e_handler SE i (co_reply o) p = HOk (f p)) ->
    (co_reply o = true -> f p <> [] /\ lenN (f p) + 16 <= 2 ^ 30 /\ lenN (f p) <= n) ->
    exists m t cs' ss',
      path {| d_cl := F (exchange C o ses n (p :: ps)); d_cs := cs; d_sp := SRet true; d_ss := ss |} m t
           {| d_cl := F (if co_reply o then cbind (exchange C o ses n ps) (fun rs => CRet (RdOk (f p) true :: rs))
                         else exchange C o ses n ps);
              d_cs := cs'; d_sp := SRet true; d_ss := ss' |} /\
      Forall (fun l => forall key, l = Some key -> key = session_key C chost (cs_id ses)) t /\
      seen (s_calls ss') = seen (s_calls ss) ++ [(c_ctr cs + 1, co_reply o, p)] /\
      c_ctr cs' = c_ctr cs + 1 /\ linked ses (hist ++ [c_ctr cs + 1]) cs' ss'.
  Proof.
    intros HF [[Hwf Hid Hkn Hhist Hbuf] Hle Hci Hsi] Hc Hp Hf Hr.
    assert (Hnr : ~ refused_after hist (c_ctr cs + 1)) by (apply next_not_refused, Hle).
    set (c := c_ctr cs + 1) in *.
    destruct (client_gcm_some C L (cs_secret ses)) as (key & K).
    (* the client writes *)
    pose proof (write_ok_run C L CE o ses p (c_feed cs [x00]) key WC K) as W.
    destruct (crun C CE (client_write C o ses p) (c_feed cs [x00])) as [w c1] eqn:Ew. cbv zeta in W.
    change (c_ctr (c_feed cs [x00])) with (c_ctr cs) in W.
    rewrite N.mod_small in W by exact Hc. fold c in W.
    destruct W as (Wc & Wi & Wb & [(W0 & _)|(_ & Wl & _ & -> & Ws)]); [unfold c in W0; lia|].
    set (ct := gcm_seal C key (gcm_nonce dir_c2s c) p) in *.
    set (q := enc_request (RqProcess (cs_id ses) c ct (co_reply o))) in *.
    set (Fw := fun X : cprog wr_result => F (cbind X (fun w => match w with
      | WrConn _ false =>
          if co_reply o then
            doc r <- client_read C o ses n;
            doc rs <- exchange C o ses n ps;
            CRet (r :: rs)
          else exchange C o ses n ps
      | _ => CRet []
      end))).
    change (F (exchange C o ses n (p :: ps))) with (Fw (client_write C o ses p)).
    assert (HFw : forall R (e : ceff R) k, Fw (CDo e k) = CDo e (fun r => Fw (k r))) by (intros; unfold Fw; cbn [cbind]; apply HF).
    destruct (path_crun C CE SE A Fw HFw (client_write C o ses p) cs (SRet true) ss x00 _ _ Ew) as (n1 & out1 & c2 & P1 & E1 & O1).
    { rewrite Wi. cbn. rewrite Hci. discriminate. }
    assert (out1 = q) as ->.
    { rewrite Ws, wire_app, wire_one, takeN_all in O1. apply app_inv_head in O1. symmetry; exact O1. }
    subst c1. cbn [c_feed c_set_in c_ctr c_buf c_last c_sent] in Wc, Wb, Wl, Ws.
    assert (Hci2 : c_in c2 = []).
    { apply (@feed_last c2 x00 []). rewrite Wi. cbn. rewrite Hci. reflexivity. }
    (* the server goes round the loop *)
    set (s0 := s_feed (s_feed ss q) [x00]).
    assert (Hin0 : s_in s0 = q ++ [x00]) by (unfold s0; cbn; rewrite Hsi; reflexivity).
    assert (Hok : request_ok (RqProcess (cs_id ses) c ct (co_reply o))).
    { split; [exact Hid|]. split; [exact Hc|]. unfold ct. rewrite (gcm_seal_len _ L). exact Hp. }
    assert (Hwf' : wf s0) by (apply (wf_same ss); auto).
    pose proof (process_accepted C SE s0 chost (cs_id ses) ct [x00] c (co_reply o) Hok Hin0 (Q _) Hh) as PA.
    specialize (PA _ hist Hkn Hhist eq_refl Hwf' Hnr key (eq_trans (eq_sym (client_server_gcm C _)) K) p (gcm_open_seal _ L _ _ _)).
    pose proof (WF_conn C SE s0 Hwf') as WF'.
    assert (TT : touches C SE (fun k => k = session_key C chost (cs_id ses)) (conn_body C) s0).
    { apply (touch_body _ _ _ s0 (RqProcess (cs_id ses) c ct (co_reply o)) [x00] Hok Hin0 (Q _)).
      cbn [after]. apply (touch_process _ _ _ chost); [exact Hh|reflexivity]. }
    destruct (srun C SE (conn_body C) s0) as [res s1] eqn:R. cbn [snd] in WF'.
    destruct PA as ((ptr & Pc) & [Pk Pother] & Pin & i & Pr). rewrite Hf in Pr.
    assert (res = Some true) as ->.
    { destruct (co_reply o); cbv zeta in Pr; [apply (proj2 Pr WS)|apply Pr]. }
    destruct (path_srun C CE SE A _ (conn_body C) (Fw (CRet (WrConn (lenN q) false))) c2 (s_feed ss q) x00 _ _ R
      ltac:(rewrite Pin; discriminate) TT) as (n2 & t2 & out2 & s2 & P2 & E2 & O2 & G2).
    assert (Hsi2 : s_in s2 = []).
    { apply (@sfeed_last s2 x00 []). rewrite <- E2. exact Pin. }
    assert (Step : go_s C SE A {| d_cl := Fw (CRet (WrConn (lenN q) false)); d_cs := c2; d_sp := SRet true; d_ss := s_feed ss q |} =
      Some {| d_cl := Fw (CRet (WrConn (lenN q) false)); d_cs := c2; d_sp := conn_body C; d_ss := s_feed ss q |}) by reflexivity.
    pose proof (path_app _ _ _ _ _ _ _ _ _ _ _ _ P1 (path_r _ _ _ _ _ _ _ _ _ _ Step P2)) as P12.
    assert (Seen : seen (s_calls s2) = seen (s_calls ss) ++ [(c, co_reply o, p)]).
    { subst s1. change (s_calls (s_feed s2 [x00])) with (s_calls s2) in Pc. rewrite Pc. unfold seen. rewrite map_app. reflexivity. }
    assert (Wf2 : wf s2) by (apply (wf_same s1); subst s1; auto).
    assert (Kn2 : known C s2 chost (cs_id ses) = Some {| ses_secret := cs_secret ses; ses_win := snd (checks new_window (hist ++ [c])) |}).
    { subst s1. exact Pk. }
    assert (Hh2 : Forall (fun x => x < 2 ^ 64) (hist ++ [c])).
    { apply Forall_app. split; [exact Hhist|]. constructor; [exact Hc|constructor]. }
    assert (Hle2 : Forall (fun x => x <= c) (hist ++ [c])).
    { apply Forall_app. split; [|constructor; [lia|constructor]]. rewrite Forall_forall in *. intros x Hx. apply Hle in Hx. lia. }
    assert (G12 : Forall (fun l => forall key, l = Some key -> key = session_key C chost (cs_id ses))
                    ([] ++ uses {| d_cl := Fw (CRet (WrConn (lenN q) false)); d_cs := c2; d_sp := SRet true; d_ss := s_feed ss q |} :: t2)).
    { cbn. constructor; [discriminate|exact G2]. }
    change (Fw (CRet (WrConn (lenN q) false))) with (F (if co_reply o then
            doc r <- client_read C o ses n;
            doc rs <- exchange C o ses n ps;
            CRet (r :: rs)
          else exchange C o ses n ps)) in P12 at 2.
    destruct (co_reply o) eqn:Ho; cbv zeta in Pr.
    - destruct (Hr eq_refl) as (Hne & Hlo & Hln).
      destruct Pr as [_ Pr]. destruct (Pr WS) as [Prs _].
      set (rc := gcm_seal C key (gcm_nonce dir_s2c c) (f p)) in *.
      assert (out2 = enc_response (RsProcess c rc)) as ->.
      { pose proof (responded_wire C SE (conn_body C) (s_feed ss q) (s_in s0) s1 _ _ WS R Prs) as RW.
        destruct Prs as (k & Prs). unfold sent_by_server in RW. change (s_sent (s_feed ss q)) with (s_sent ss) in RW.
        rewrite Prs in RW, O2. change (s_sent s0) with (s_sent ss) in RW, O2.
        rewrite skipn_app_exact in RW. rewrite wire_app, RW in O2. apply app_inv_head in O2. symmetry; exact O2. }
      set (out := enc_response (RsProcess c rc)) in *.
      destruct (read_fresh_run C CE o ses n (c_feed (c_feed c2 out) [x00]) out [x00] c rc key WC) as (r & c3 & Rr & Ri & (Rw1 & Rw2 & Rw3 & Rw4) & Rb).
      + cbn. rewrite Wb. exact Hbuf.
      + cbn. rewrite Hci2. reflexivity.
      + exists x80. split; [reflexivity|]. split; [cbn; lia|]. split; [exact Hc|]. unfold rc. rewrite (gcm_seal_len _ L). exact Hlo.
      + exact K.
      + change (c_last (c_feed (c_feed c2 out) [x00])) with (c_last c2) in Rb. rewrite Wl, N.eqb_refl in Rb. unfold rc in Rb. rewrite (gcm_open_seal _ L) in Rb.
        assert (r = RdOk (f p) true /\ c_buf c3 = []) as [-> Hb3].
        { destruct (f p) as [|y z]; [congruence|]. destruct Rb as [-> ->]. apply N.leb_le in Hln. unfold takeN, dropN. rewrite Hln. auto. }
        set (Fr := fun X : cprog rd_result => F (cbind X (fun r => doc rs <- exchange C o ses n ps; CRet (r :: rs)))).
        assert (HFr : forall R (e : ceff R) k, Fr (CDo e k) = CDo e (fun r => Fr (k r))) by (intros; unfold Fr; cbn [cbind]; apply HF).
        destruct (path_crun C CE SE A Fr HFr (client_read C o ses n) (c_feed c2 out) (SRet true) s2 x00 _ _ Rr) as (n3 & out3 & c4 & P3 & E3 & O3).
        { rewrite Ri. discriminate. }
        assert (out3 = []) as ->.
        { rewrite Rw1 in O3. change (c_sent (c_feed (c_feed c2 out) [x00])) with (c_sent c2) in O3.
          change (c_sent (c_feed c2 out)) with (c_sent c2) in O3. rewrite <- (app_nil_r (wire (c_sent c2))) in O3 at 1.
          apply app_inv_head in O3. symmetry; exact O3. }
        rewrite s_feed_nil in P3.
        pose proof (path_app _ _ _ _ _ _ _ _ _ _ _ _ P12 P3) as P.
        do 4 eexists. split; [exact P|]. split; [apply Forall_app; split; [exact G12|constructor]|].
        split; [exact Seen|].
        assert (Hc4 : c_ctr c4 = c).
        { subst c3. change (c_ctr (c_feed c4 [x00])) with (c_ctr c4) in Rw2. rewrite Rw2. exact Wc. }
        split; [exact Hc4|]. split; [split; auto| | |exact Hsi2].
        * subst c3. exact Hb3.
        * rewrite Hc4. exact Hle2.
        * apply (@feed_last c4 x00 []). rewrite <- E3. exact Ri.
    - assert (out2 = []) as ->.
      { destruct Pr as [Pr _]. unfold silent in Pr. rewrite Pr in O2. change (s_sent s0) with (s_sent ss) in O2.
        change (s_sent (s_feed ss q)) with (s_sent ss) in O2. rewrite <- (app_nil_r (wire (s_sent ss))) in O2 at 1.
        apply app_inv_head in O2. symmetry; exact O2. }
      rewrite c_feed_nil in P12. do 4 eexists. split; [exact P12|]. split; [exact G12|]. split; [exact Seen|]. split; [exact Wc|].
      split; [split; auto| |exact Hci2|exact Hsi2].
      + rewrite Wb. exact Hbuf.
      + rewrite Wc. exact Hle2.
  Qed.

  (** Any number of messages. *)
  Lemma exchange_path ses n f : forall ps hist cs ss (F : cprog (list rd_result) -> cprog A),
    (forall R (e : ceff R) k, F (CDo e k) = CDo e (fun r => F (k r))) ->
    linked ses hist cs ss -> c_ctr cs + lenN ps < 2 ^ 64 -> Forall (fun p => lenN p + 16 <= 2 ^ 30) ps ->
    (forall i p, In p ps -> e_handler SE i (co_reply o) p = HOk (f p)) ->
    (co_reply o = true -> Forall (fun p => f p <> [] /\ lenN (f p) + 16 <= 2 ^ 30 /\ lenN (f p) <= n) ps) ->
    exists m t cs' ss',
      path {| d_cl := F (exchange C o ses n ps); d_cs := cs; d_sp := SRet true; d_ss := ss |} m t
           {| d_cl := F (CRet (expected o f ps)); d_cs := cs'; d_sp := SRet true; d_ss := ss' |} /\
      Forall (fun l => forall key, l = Some key -> key = session_key C chost (cs_id ses)) t /\
      seen (s_calls ss') = seen (s_calls ss) ++ numbered (c_ctr cs + 1) (co_reply o) ps /\
      s_in ss' = [].
  Proof.
    induction ps as [|p ps IH]; intros hist cs ss F HF Hl Hc Hp Hf Hr.
    - exists 0%nat, [], cs, ss. split; [|split; [constructor|split; [cbn; rewrite app_nil_r; reflexivity|apply (li_sin _ _ _ _ Hl)]]].
      unfold expected. cbn [map]. destruct (co_reply o); apply path_nil.
    - rewrite lenN_cons in Hc. inversion Hp as [|? ? Hp1 Hp2]; subst.
      assert (Hr1 : co_reply o = true -> f p <> [] /\ lenN (f p) + 16 <= 2 ^ 30 /\ lenN (f p) <= n).
      { intros H. specialize (Hr H). inversion Hr; assumption. }
      assert (Hr2 : co_reply o = true -> Forall (fun p => f p <> [] /\ lenN (f p) + 16 <= 2 ^ 30 /\ lenN (f p) <= n) ps).
      { intros H. specialize (Hr H). inversion Hr; assumption. }
      destruct (round_path ses hist cs ss p n f F ps HF Hl ltac:(lia) Hp1 (fun i => Hf i p (or_introl eq_refl)) Hr1)
        as (m & t & c1 & s1 & P1 & G1 & S1 & C1 & L1).
      set (F2 := fun X => F (if co_reply o then cbind X (fun rs => CRet (RdOk (f p) true :: rs)) else X)).
      assert (HF2 : forall R (e : ceff R) k, F2 (CDo e k) = CDo e (fun r => F2 (k r))).
      { intros. unfold F2. destruct (co_reply o); cbn [cbind]; apply HF. }
      destruct (IH _ c1 s1 F2 HF2 L1 ltac:(lia) Hp2 (fun i p' Hi => Hf i p' (or_intror Hi)) Hr2)
        as (m' & t' & c2 & s2 & P2 & G2 & S2 & I2).
      exists (m + m')%nat, (t ++ t'), c2, s2. split.
      + eapply path_app; [exact P1|]. unfold F2 in P2.
        assert (E : (if co_reply o then cbind (CRet (expected o f ps)) (fun rs => CRet (RdOk (f p) true :: rs)) else CRet (expected o f ps))
                    = CRet (expected o f (p :: ps))).
        { unfold expected. destruct (co_reply o); reflexivity. }
        rewrite E in P2. exact P2.
      + split; [apply Forall_app; auto|]. split; [|exact I2].
        rewrite S2, S1, C1, <- app_assoc. reflexivity.
  Qed.
End Run.
