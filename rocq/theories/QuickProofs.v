(** Lemmas for C170: the quick start, among others. *)
From Verif Require Import Bytes BytesProofs Parser ParserProofs Crypto Kdf Wire WireProofs WireSeq WireExtra Replay SpecReplay
  ReplayProofs Server ServerSeq SpecServer ServerProofs ServerProps ServerProps2 ServerProps3 MultiConn SpecMulti MultiProofs Keys KeysProofs
  Client ClientSeq SpecClient ClientProofs SpecE2E E2EProofs System SpecSystem Kahn Duo DuoRun DuoTalk SystemSim SystemProofs
  Usage UsageProofs QuickStart.

(** * Any program whose duo comes to an end *)
Section Among.
  Variables (C : Crypto) (CE : cenv) (E : nat -> senv) (tcp : nat -> bool) (me : nat) (inputs : nat -> bytes) (m : mem) (K : bytes -> bool)
    (A : Type) (p : cprog A) (N : nat) (t : list (option bytes)) (z : duo A).
  Hypothesis Htcp : tcp me = true.
  Hypothesis Hm : wf (join m (fresh_conn C true [])).
  Hypothesis P : path (duo A) (option bytes) (go_c C CE A) (go_s C (E me) A) uses
    {| d_cl := p; d_cs := blank; d_sp := conn_body C; d_ss := join m (fresh_conn C true []) |} N t z.
  Hypothesis Hz : ends _ (go_c C CE A) (go_s C (E me) A) z.
  Hypothesis G : Forall (good K) t.

  Lemma among sched x : keeps_off C CE E tcp me K sched (dialling C tcp inputs m me p) ->
    sys_run C CE E tcp me sched (dialling C tcp inputs m me p) = Some x ->
    (own_moves sched <= N)%nat /\ (rests C CE E tcp me x <-> own_moves sched = N) /\
    (rests C CE E tcp me x -> y_cl x = d_cl z /\ seen (c_calls (t_conn (y_srv x) me)) = seen (s_calls (d_ss z))) /\
    (forall a, y_cl x = CRet a -> d_cl z = CRet a) /\ (y_cl x = CPanic -> d_cl z = CPanic) /\
    exists later, seen (s_calls (d_ss z)) = seen (c_calls (t_conn (y_srv x) me)) ++ later.
  Proof.
    intros Hk Hrun.
    assert (Hsane : sane m) by (destruct Hm as [W1 W2 _]; split; [exact W1|exact W2]).
    destruct (sim_dialling C E tcp me K inputs m p Htcp Hsane) as (f0 & N0 & S0).
    destruct (sim_sched C CE E tcp me _ _ Htcp sched _ _ _ _ _ _ _ _ S0 P Hz G Hk Hrun)
      as (y & f1 & N1 & m1 & t1 & S1 & P1 & G1 & EN).
    pose proof (sim_rests C CE E tcp me _ _ Htcp _ _ _ _ _ _ _ S1 P1 Hz G1) as SR.
    pose proof (path_done _ _ _ _ _ _ _ _ P1) as [D1 D2]. destruct (path_calls _ _ _ _ _ _ _ _ P1) as (l & Hl).
    destruct S1 as [Q1 Q2 Q3 (A1 & A2 & A3 & A4 & A5) Q5]. cbn [conn_of c_calls] in A4.
    split; [lia|]. split; [rewrite SR; lia|]. split.
    { intros H. apply SR in H. subst m1. inversion P1; subst. split; [exact Q1|exact A4]. }
    rewrite Q1. split; [exact D1|]. split; [exact D2|].
    exists (seen l). rewrite A4, Hl. unfold seen. apply map_app.
  Qed.
End Among.

(** The connection goes back to waiting for a request. *)
Lemma back C CE SE A cl cs ss : (forall i, e_quit SE i = false) -> (exists a : A, cl = CRet a) -> s_in ss = [] ->
  exists m t z, path (duo A) (option bytes) (go_c C CE A) (go_s C SE A) uses
      {| d_cl := cl; d_cs := cs; d_sp := SRet true; d_ss := ss |} m t z /\
    ends _ (go_c C CE A) (go_s C SE A) z /\ Forall (fun l => l = None) t /\ d_cl z = cl /\ s_calls (d_ss z) = s_calls ss.
Proof.
  intros Q (a & ->) Hi. exists 2%nat. do 2 eexists. split.
  { eapply path_r; [reflexivity|]. eapply path_r.
    { unfold go_s, conn_body, sdo. cbn [d_cl d_cs d_sp d_ss sbind s_ready sexec s_out]. rewrite Q, c_feed_nil. reflexivity. }
    apply path_nil. }
  split; [split; [reflexivity|]|split; [repeat constructor|split; reflexivity]].
  unfold go_s. cbn [d_cl d_cs d_sp d_ss]. unfold one_request, parse_req_common. cbn. rewrite Hi. reflexivity.
Qed.

(** * The key *)
Section Fetch.
  Variables (C : Crypto) (CE : cenv) (SE : senv) (alg : N) (pk : pubkey) (raw : bytes).
  Hypothesis W : c_works CE.
  Hypothesis SW : writes_all SE.
  Hypothesis Q : forall i, e_quit SE i = false.
  Hypothesis F : forall i, e_fetch SE i = KOk (alg, pk).
  Hypothesis M : pkix_marshal C pk = Some raw.
  Hypothesis PM : pkix_parse C raw = Some pk.
  Hypothesis Hl : lenN raw <= 2 ^ 16.
  Hypothesis Ha : alg < 256.
  Notation A := (fk_error + pubkey)%type.
  Notation path := (path (duo A) (option bytes) (go_c C CE A) (go_s C SE A) uses).
  Notation q := (enc_request RqFetchKey).

  Lemma touch_fetch (P : bytes -> Prop) s : touches C SE P (fetch_key_handler C) s.
  Proof.
    unfold fetch_key_handler, sdo. cbn [sbind touches]. split; [discriminate|]. cbn [sexec fst snd]. rewrite F, M. apply touch_response.
  Qed.

  Lemma fetch_path cs ss : s_in ss = [] -> c_in cs = [] ->
    exists n t z, path {| d_cl := fetch_protocol C; d_cs := cs; d_sp := conn_body C; d_ss := ss |} n t z /\
      ends _ (go_c C CE A) (go_s C SE A) z /\ Forall (fun l => l = None) t /\
      d_cl z = CRet (inr pk) /\ s_calls (d_ss z) = s_calls ss.
  Proof.
    intros Hsi Hci.
    (* the request *)
    set (k := fun w : N * bool => if snd w then CRet (inl FkSend) : cprog A
      else doc rc <- clift parse_resp_common;
           match rc with
           | inl e => CRet (inl (FkParse e))
           | inr rc =>
               if negb (rs_success rc) then
                 doc er <- clift (parse_error_resp rc);
                 match er with
                 | inl e => CRet (inl (FkParse e))
                 | inr er => CRet (inl (FkRefused (er_code er) (er_msg er)))
                 end
               else
                 doc r <- clift (parse_fetch_resp rc);
                 match r with
                 | inl e => CRet (inl (FkParse e))
                 | inr r => match pkix_parse C (fk_key r) with None => CRet (inl FkKey) | Some pk => CRet (inr pk) end
                 end
           end).
    assert (Head : fetch_protocol C = CDo (CWrite q) k) by reflexivity.
    set (c1 := c_add_sent (c_tick cs) q (lenN q)).
    pose proof (proj1 W (c_step cs) q) as [W1 W2].
    assert (Ex : cexec C CE (CWrite q) cs = ((lenN q, false), c1) /\ c_out CE (CWrite q) cs = q).
    { cbn [cexec c_out]. destruct (ce_write CE (c_step cs) q) as [n er]. cbn [fst snd] in *. subst er.
      rewrite N.min_r by exact W1. split; [reflexivity|]. unfold takeN. apply N.leb_le in W1. rewrite W1. reflexivity. }
    destruct Ex as [Ex Eo].
    assert (P1 : path {| d_cl := fetch_protocol C; d_cs := cs; d_sp := conn_body C; d_ss := ss |} 1 []
      {| d_cl := k (lenN q, false); d_cs := c1; d_sp := conn_body C; d_ss := s_feed ss q |}).
    { eapply path_l; [|apply path_nil]. unfold go_c. cbn [d_cl d_cs d_sp d_ss]. rewrite Head. cbn [c_ready]. rewrite Ex, Eo. reflexivity. }
    set (cl1 := k (lenN q, false)) in *.
    (* the server *)
    set (s0 := s_feed (s_feed ss q) [x00]).
    assert (Hin0 : s_in s0 = q ++ [x00]) by (unfold s0; cbn -[enc_request]; rewrite Hsi; reflexivity).
    assert (Hok : request_ok RqFetchKey) by exact I.
    assert (TT : touches C SE (fun _ => False) (conn_body C) s0).
    { apply (touch_body _ _ _ s0 RqFetchKey [x00] Hok Hin0 (Q _)). apply touch_fetch. }
    pose proof (conn_body_ok C SE s0 RqFetchKey [x00] Hok Hin0 (Q _)) as R.
    destruct (srun C SE (conn_body C) s0) as [r s1] eqn:ER.
    cbn [after] in R. unfold fetch_key_handler in R. rewrite srun_bind in R. cbn [sdo srun sexec] in R. rewrite F in R.
    cbn [fst snd] in R. rewrite M in R.
    match type of R with (_ = srun _ _ (write_response _) ?s0) =>
      destruct (write_response_run C SE (RsFetchKey alg raw) s0) as (n & ok & Hn & Hn2 & [(X & Xok)|(X & _)]) end; [|contradiction].
    specialize (Xok SW). cbn [enc_response] in X. rewrite X in R. subst ok. injection R as -> ->.
    set (s1 := add_sent _ _ _) in ER.
    destruct (path_srun C CE SE A (fun _ => False) (conn_body C) cl1 c1 (s_feed ss q) x00 _ _ ER) as (m2 & t2 & out & s2 & P2 & E2 & O2 & G2).
    { cbn. discriminate. }
    { exact TT. }
    set (rsp := enc_response (RsFetchKey alg raw)) in *.
    assert (Si2 : s_in s2 = []) by (apply (@sfeed_last s2 x00 []); rewrite <- E2; reflexivity).
    assert (Sc2 : s_calls s2 = s_calls ss) by (change (s_calls s2) with (s_calls (s_feed s2 [x00])); rewrite <- E2; reflexivity).
    assert (out = rsp) as ->.
    { assert (RW : wire (s_sent s1) = wire (s_sent (s_feed ss q)) ++ rsp).
      { unfold s1. cbn [add_sent s_sent]. rewrite wire_app, wire_one. f_equal.
        assert (lenN rsp <= n) as Hle by (specialize (Hn2 eq_refl); lia).
        unfold takeN. apply N.leb_le in Hle. fold rsp. change (enc_fetch_resp (new_fetch_response alg raw)) with rsp.
        rewrite Hle. reflexivity. }
      rewrite RW in O2. apply app_inv_head in O2. symmetry; exact O2. }
    (* the answer *)
    destruct (fetch_protocol_run C CE (c_feed (c_feed cs rsp) [x00]) alg raw [x00] W) as (c3 & R3 & I3 & S3 & _).
    { split; [exact Ha|exact Hl]. }
    { cbn -[enc_response]. rewrite Hci. reflexivity. }
    rewrite PM in R3.
    assert (R3' : crun C CE cl1 (c_feed (c_feed c1 rsp) [x00]) = (Some (inr pk), c3)).
    { etransitivity; [|exact R3]. rewrite Head. cbn [crun].
      assert (Ex3 : cexec C CE (CWrite q) (c_feed (c_feed cs rsp) [x00]) =
        ((lenN q, false), c_feed (c_feed c1 rsp) [x00])).
      { cbn [cexec]. change (c_step (c_feed (c_feed cs rsp) [x00])) with (c_step cs).
        destruct (ce_write CE (c_step cs) q) as [n0 er]. cbn [fst snd] in *. subst er. rewrite N.min_r by exact W1. reflexivity. }
      rewrite Ex3. reflexivity. }
    destruct (path_crun C CE SE A (fun x => x) ltac:(reflexivity) cl1 (c_feed c1 rsp) (SRet true) s2 x00 _ _ R3')
      as (m3 & out3 & c4 & P3 & E3 & O3).
    { rewrite I3. discriminate. }
    assert (out3 = []) as ->.
    { cbv zeta in S3. rewrite S3 in O3. change (c_sent (c_feed (c_feed cs rsp) [x00])) with (c_sent cs) in O3.
      change (c_sent (c_feed c1 rsp)) with (c_sent cs ++ [(q, lenN q)]) in O3.
      rewrite <- (app_nil_r (wire (c_sent cs ++ [(q, lenN q)]))) in O3 at 1.
      apply app_inv_head in O3. symmetry; exact O3. }
    rewrite s_feed_nil in P3.
    destruct (back C CE SE A (CRet (inr pk)) c4 s2 Q ltac:(eauto) Si2) as (m4 & t4 & z & P4 & Hz & G4 & Zc & Zs).
    pose proof (path_app _ _ _ _ _ _ _ _ _ _ _ _ P1 (path_app _ _ _ _ _ _ _ _ _ _ _ _ P2 (path_app _ _ _ _ _ _ _ _ _ _ _ _ P3 P4))) as P.
    do 3 eexists. split; [exact P|]. split; [exact Hz|]. split; [|split; [exact Zc|congruence]].
    cbn [app]. apply Forall_app. split; [|exact G4].
    eapply Forall_impl; [|exact G2]. intros [l|] H; [destruct (H l eq_refl)|reflexivity].
  Qed.
End Fetch.

(** * The messages *)
Section Says.
  Variables (C : Crypto) (CE : cenv) (SE : senv) (o : copts) (chost : bytes) (A : Type).
  Hypothesis L : CryptoLaws C.
  Hypothesis WC : c_works CE.
  Hypothesis WS : writes_all SE.
  Hypothesis Q : forall i, e_quit SE i = false.
  Hypothesis Hh : e_host SE = Some chost.
  Hypothesis Ho : co_reply o = true.
  Variables (size : nat -> N) (n : nat) (f : bytes -> bytes).
  Hypothesis Hs : forall i, 0 < size i.
  Notation path := (path (duo A) (option bytes) (go_c C CE A) (go_s C SE A) uses).
  Notation reads := (list (option (bytes * option rd_error))).
  Notation linked := (linked C chost).

  Lemma say_path ses hist cs ss p (F : cprog reads -> cprog A) ps :
    (forall R (e : ceff R) k, F (CDo e k) = CDo e (fun r => F (k r))) ->
    linked ses hist cs ss -> c_ctr cs + 1 < 2 ^ 64 -> lenN p + 16 <= 2 ^ 30 ->
    (forall i, e_handler SE i true p = HOk (f p)) ->
    f p <> [] -> lenN (f p) + 16 <= 2 ^ 30 -> (length (f p) <= n)%nat ->
    exists m t cs' ss',
      path {| d_cl := F (says C o ses size n (p :: ps)); d_cs := cs; d_sp := SRet true; d_ss := ss |} m t
           {| d_cl := F (cbind (says C o ses size n ps) (fun rs => CRet (Some (f p, None) :: rs)));
              d_cs := cs'; d_sp := SRet true; d_ss := ss' |} /\
      Forall (fun l => forall key, l = Some key -> key = session_key C chost (cs_id ses)) t /\
      seen (s_calls ss') = seen (s_calls ss) ++ [(c_ctr cs + 1, true, p)] /\
      c_ctr cs' = c_ctr cs + 1 /\ linked ses (hist ++ [c_ctr cs + 1]) cs' ss'.
  Proof.
    intros HF [[Hwf Hid Hkn Hhist Hbuf] Hle Hci Hsi] Hc Hp Hf Hne Hlo Hln.
    assert (Hnr : ~ refused_after hist (c_ctr cs + 1)) by (apply next_not_refused, Hle).
    set (c := c_ctr cs + 1) in *.
    destruct (client_gcm_some C L (cs_secret ses)) as (key & K).
    (* the client writes *)
    pose proof (write_ok_run C L CE o ses p (c_feed cs [x00]) key WC K) as W.
    destruct (crun C CE (client_write C o ses p) (c_feed cs [x00])) as [w c1] eqn:Ew. cbv zeta in W.
    change (c_ctr (c_feed cs [x00])) with (c_ctr cs) in W.
    rewrite N.mod_small in W by exact Hc. fold c in W. rewrite Ho in W.
    destruct W as (Wc & Wi & Wb & [(W0 & _)|(_ & Wl & _ & -> & Ws)]); [unfold c in W0; lia|].
    set (ct := gcm_seal C key (gcm_nonce dir_c2s c) p) in *.
    set (q := enc_request (RqProcess (cs_id ses) c ct true)) in *.
    set (Fw := fun X : cprog wr_result => F (cbind X (fun w => match w with
      | WrConn _ false =>
          doc r <- read_all C o ses size n [];
          doc rs <- says C o ses size n ps;
          CRet (r :: rs)
      | _ => CRet []
      end))).
    change (F (says C o ses size n (p :: ps))) with (Fw (client_write C o ses p)).
    assert (HFw : forall R (e : ceff R) k, Fw (CDo e k) = CDo e (fun r => Fw (k r))) by (intros; unfold Fw; cbn [cbind]; apply HF).
    destruct (path_crun C CE SE A Fw HFw (client_write C o ses p) cs (SRet true) ss x00 _ _ Ew) as (n1 & out1 & c2 & P1 & E1 & O1).
    { rewrite Wi. cbn. rewrite Hci. discriminate. }
    assert (out1 = q) as ->.
    { rewrite Ws, wire_app, wire_one, takeN_all in O1. apply app_inv_head in O1. symmetry; exact O1. }
    subst c1. cbn [c_feed c_set_in c_ctr c_buf c_last c_sent] in Wc, Wb, Wl, Ws.
    assert (Hci2 : c_in c2 = []).
    { apply (@feed_last c2 x00 []). rewrite Wi. cbn. rewrite Hci. reflexivity. }
    (* the server goes round the loop *)
    set (s0 := s_feed (s_feed ss q) [x00]).
    assert (Hin0 : s_in s0 = q ++ [x00]) by (unfold s0; cbn; rewrite Hsi; reflexivity).
    assert (Hok : request_ok (RqProcess (cs_id ses) c ct true)).
    { split; [exact Hid|]. split; [exact Hc|]. unfold ct. rewrite (gcm_seal_len _ L). exact Hp. }
    assert (Hwf' : wf s0) by (apply (wf_same ss); auto).
    pose proof (process_accepted C SE s0 chost (cs_id ses) ct [x00] c true Hok Hin0 (Q _) Hh) as PA.
    specialize (PA _ hist Hkn Hhist eq_refl Hwf' Hnr key (eq_trans (eq_sym (client_server_gcm C _)) K) p (gcm_open_seal _ L _ _ _)).
    pose proof (WF_conn C SE s0 Hwf') as WF'.
    assert (TT : touches C SE (fun k => k = session_key C chost (cs_id ses)) (conn_body C) s0).
    { apply (touch_body _ _ _ s0 (RqProcess (cs_id ses) c ct true) [x00] Hok Hin0 (Q _)).
      cbn [after]. apply (touch_process _ _ _ chost); [exact Hh|reflexivity]. }
    destruct (srun C SE (conn_body C) s0) as [res s1] eqn:R. cbn [snd] in WF'.
    destruct PA as ((ptr & Pc) & [Pk Pother] & Pin & i & Pr). rewrite Hf in Pr. cbv zeta in Pr.
    destruct Pr as [_ Pr]. destruct (Pr WS) as [Prs ->].
    destruct (path_srun C CE SE A (fun k => k = session_key C chost (cs_id ses)) (conn_body C) (Fw (CRet (WrConn (lenN q) false))) c2
      (s_feed ss q) x00 _ _ R ltac:(rewrite Pin; discriminate) TT) as (n2 & t2 & out2 & s2 & P2 & E2 & O2 & G2).
    assert (Hsi2 : s_in s2 = []).
    { apply (@sfeed_last s2 x00 []). rewrite <- E2. exact Pin. }
    assert (Step : go_s C SE A {| d_cl := Fw (CRet (WrConn (lenN q) false)); d_cs := c2; d_sp := SRet true; d_ss := s_feed ss q |} =
      Some {| d_cl := Fw (CRet (WrConn (lenN q) false)); d_cs := c2; d_sp := conn_body C; d_ss := s_feed ss q |}) by reflexivity.
    pose proof (path_app _ _ _ _ _ _ _ _ _ _ _ _ P1 (path_r _ _ _ _ _ _ _ _ _ _ Step P2)) as P12.
    assert (Seen : seen (s_calls s2) = seen (s_calls ss) ++ [(c, true, p)]).
    { subst s1. change (s_calls (s_feed s2 [x00])) with (s_calls s2) in Pc. rewrite Pc. unfold seen. rewrite map_app. reflexivity. }
    assert (Wf2 : wf s2) by (apply (wf_same s1); subst s1; auto).
    assert (Kn2 : known C s2 chost (cs_id ses) = Some {| ses_secret := cs_secret ses; ses_win := snd (checks new_window (hist ++ [c])) |}).
    { subst s1. exact Pk. }
    assert (Hh2 : Forall (fun x => x < 2 ^ 64) (hist ++ [c])).
    { apply Forall_app. split; [exact Hhist|]. constructor; [exact Hc|constructor]. }
    assert (Hle2 : Forall (fun x => x <= c) (hist ++ [c])).
    { apply Forall_app. split; [|constructor; [lia|constructor]]. rewrite Forall_forall in *. intros x Hx. apply Hle in Hx. lia. }
    assert (G12 : Forall (fun l => forall key, l = Some key -> key = session_key C chost (cs_id ses))
                    ([] ++ uses {| d_cl := Fw (CRet (WrConn (lenN q) false)); d_cs := c2; d_sp := SRet true; d_ss := s_feed ss q |} :: t2)).
    { cbn. constructor; [discriminate|exact G2]. }
    (* the client reads *)
    set (Fr := fun X : cprog (option (bytes * option rd_error)) => F (cbind X (fun r => doc rs <- says C o ses size n ps; CRet (r :: rs)))).
    change (Fw (CRet (WrConn (lenN q) false))) with (Fr (read_all C o ses size n [])) in P12 at 2.
    set (rc := gcm_seal C key (gcm_nonce dir_s2c c) (f p)) in *.
    assert (out2 = enc_response (RsProcess c rc)) as ->.
    { pose proof (responded_wire C SE (conn_body C) (s_feed ss q) (s_in s0) s1 _ _ WS R Prs) as RW.
      destruct Prs as (k & Prs). unfold sent_by_server in RW. change (s_sent (s_feed ss q)) with (s_sent ss) in RW.
      rewrite Prs in RW, O2. change (s_sent s0) with (s_sent ss) in RW, O2.
      rewrite skipn_app_exact in RW. rewrite wire_app, RW in O2. apply app_inv_head in O2. symmetry; exact O2. }
    set (out := enc_response (RsProcess c rc)) in *.
    destruct (read_all_fresh C L CE o ses size n (c_feed (c_feed c2 out) [x00]) out [x00] key (f p) WC) as (c3 & Rr & Ri & Rb & (Rw1 & Rw2 & Rw3 & Rw4)).
    { cbn. rewrite Wb. exact Hbuf. }
    { cbn. rewrite Hci2. reflexivity. }
    { exact K. }
    { exact Hne. }
    { change (c_last (c_feed (c_feed c2 out) [x00])) with (c_last c2). rewrite Wl.
      exists x80. split; [reflexivity|]. split; [cbn; lia|]. split; [exact Hc|]. rewrite (gcm_seal_len _ L). exact Hlo. }
    { exact Hs. }
    { exact Hln. }
    assert (HFr : forall R (e : ceff R) k, Fr (CDo e k) = CDo e (fun r => Fr (k r))) by (intros; unfold Fr; cbn [cbind]; apply HF).
    destruct (path_crun C CE SE A Fr HFr (read_all C o ses size n []) (c_feed c2 out) (SRet true) s2 x00 _ _ Rr) as (n3 & out3 & c4 & P3 & E3 & O3).
    { rewrite Ri. discriminate. }
    assert (out3 = []) as ->.
    { rewrite Rw1 in O3. change (c_sent (c_feed (c_feed c2 out) [x00])) with (c_sent c2) in O3.
      change (c_sent (c_feed c2 out)) with (c_sent c2) in O3. rewrite <- (app_nil_r (wire (c_sent c2))) in O3 at 1.
      apply app_inv_head in O3. symmetry; exact O3. }
    rewrite s_feed_nil in P3.
    pose proof (path_app _ _ _ _ _ _ _ _ _ _ _ _ P12 P3) as P.
    do 4 eexists. split; [exact P|]. split; [apply Forall_app; split; [exact G12|constructor]|].
    split; [exact Seen|].
    assert (Hc4 : c_ctr c4 = c).
    { subst c3. change (c_ctr (c_feed c4 [x00])) with (c_ctr c4) in Rw2. rewrite Rw2. exact Wc. }
    split; [exact Hc4|]. split; [split; auto| | |exact Hsi2].
    - subst c3. exact Rb.
    - rewrite Hc4. exact Hle2.
    - apply (@feed_last c4 x00 []). rewrite <- E3. exact Ri.
  Qed.

  Lemma says_path ses : forall ps hist cs ss (F : cprog reads -> cprog A),
    (forall R (e : ceff R) k, F (CDo e k) = CDo e (fun r => F (k r))) ->
    linked ses hist cs ss -> c_ctr cs + lenN ps < 2 ^ 64 -> Forall (fun p => lenN p + 16 <= 2 ^ 30) ps ->
    (forall i p, In p ps -> e_handler SE i true p = HOk (f p)) ->
    Forall (fun p => f p <> [] /\ lenN (f p) + 16 <= 2 ^ 30 /\ (length (f p) <= n)%nat) ps ->
    exists m t cs' ss',
      path {| d_cl := F (says C o ses size n ps); d_cs := cs; d_sp := SRet true; d_ss := ss |} m t
           {| d_cl := F (CRet (map (fun p => Some (f p, None)) ps)); d_cs := cs'; d_sp := SRet true; d_ss := ss' |} /\
      Forall (fun l => forall key, l = Some key -> key = session_key C chost (cs_id ses)) t /\
      seen (s_calls ss') = seen (s_calls ss) ++ numbered (c_ctr cs + 1) true ps /\
      s_in ss' = [].
  Proof.
    induction ps as [|p ps IH]; intros hist cs ss F HF Hl Hc Hp Hf Hr.
    - exists 0%nat, [], cs, ss. split; [apply path_nil|split; [constructor|split; [cbn; rewrite app_nil_r; reflexivity|apply (li_sin _ _ _ _ _ _ Hl)]]].
    - rewrite lenN_cons in Hc. inversion Hp as [|? ? Hp1 Hp2]; subst. inversion Hr as [|? ? (Hr1 & Hr2 & Hr3) Hr4]; subst.
      destruct (say_path ses hist cs ss p F ps HF Hl ltac:(lia) Hp1 (fun i => Hf i p (or_introl eq_refl)) Hr1 Hr2 Hr3)
        as (m & t & c1 & s1 & P1 & G1 & S1 & C1 & L1).
      set (F2 := fun X : cprog reads => F (cbind X (fun rs => CRet (Some (f p, None) :: rs)))).
      assert (HF2 : forall R (e : ceff R) k, F2 (CDo e k) = CDo e (fun r => F2 (k r))) by (intros; unfold F2; cbn [cbind]; apply HF).
      destruct (IH _ c1 s1 F2 HF2 L1 ltac:(lia) Hp2 (fun i p' Hi => Hf i p' (or_intror Hi)) Hr4)
        as (m' & t' & c2 & s2 & P2 & G2 & S2 & I2).
      exists (m + m')%nat, (t ++ t'), c2, s2. split; [eapply path_app; [exact P1|exact P2]|].
      split; [apply Forall_app; auto|]. split; [|exact I2].
      rewrite S2, S1, C1, <- app_assoc. reflexivity.
  Qed.
End Says.

Section Quick.
  Variables (C : Crypto) (CE : cenv) (SE : senv) (o : copts) (chost host csk rnd : bytes) (ssk : privkey).
  Hypothesis L : CryptoLaws C.
  Hypothesis U : undisturbed C CE SE chost host csk rnd ssk.
  Hypothesis Ho : co_reply o = true.
  Variables (size : nat -> N) (n : nat) (f : bytes -> bytes).
  Hypothesis Hs : forall i, 0 < size i.
  Notation A := (hs_error + list (option (bytes * option rd_error)))%type.

  Lemma quick_path cs ss ps :
    wf ss -> s_in ss = [] -> c_in cs = [] -> c_buf cs = [] -> c_ctr cs = 0 ->
    lenN ps < 2 ^ 64 -> Forall (fun p => lenN p + 16 <= 2 ^ 30) ps ->
    (forall i p, In p ps -> e_handler SE i true p = HOk (f p)) ->
    Forall (fun p => f p <> [] /\ lenN (f p) + 16 <= 2 ^ 30 /\ (length (f p) <= n)%nat) ps ->
    exists m t z,
      path (duo A) (option bytes) (go_c C CE A) (go_s C SE A) uses
        {| d_cl := quick C o host size n ps; d_cs := cs; d_sp := conn_body C; d_ss := ss |} m t z /\
      ends _ (go_c C CE A) (go_s C SE A) z /\
      Forall (fun l => forall key, l = Some key -> key = session_key C chost (uuid_of rnd)) t /\
      d_cl z = CRet (inr (map (fun p => Some (f p, None)) ps)) /\
      seen (s_calls (d_ss z)) = seen (s_calls ss) ++ numbered 1 true ps.
  Proof.
    intros Hwf Hsi Hci Hb Hctr Hlen Hp Hf Hr.
    set (F1 := fun X : cprog (hs_error + csession) => cbind X (fun h => match h with
      | inl e => CRet (inl e)
      | inr ses => doc rs <- says C o ses size n ps; CRet (inr rs) : cprog A
      end)).
    destruct (handshake_path C CE SE chost host csk rnd ssk L U A cs ss F1 ltac:(reflexivity) Hwf Hsi Hci Hb Hctr)
      as (m1 & t1 & c1 & s1 & shared & P1 & G1 & Sc1 & C1 & L1).
    set (ses := {| cs_secret := shared; cs_id := uuid_of rnd |}) in *.
    set (F2 := fun X : cprog (list (option (bytes * option rd_error))) => cbind X (fun rs => CRet (inr rs) : cprog A)).
    change (F1 (CRet (inr ses))) with (F2 (says C o ses size n ps)) in P1.
    destruct (says_path C CE SE o chost A L (u_client _ _ _ _ _ _ _ _ U) (u_server _ _ _ _ _ _ _ _ U) (u_quit _ _ _ _ _ _ _ _ U)
      (u_host _ _ _ _ _ _ _ _ U) Ho size n f Hs ses ps [] c1 s1 F2 ltac:(reflexivity) L1 ltac:(rewrite C1; lia) Hp Hf Hr)
      as (m2 & t2 & c2 & s2 & P2 & G2 & S2 & I2).
    destruct (back C CE SE A _ c2 s2 (u_quit _ _ _ _ _ _ _ _ U) (ex_intro (fun a => F2 (CRet (map (fun p => Some (f p, None)) ps)) = CRet a) _ eq_refl) I2) as (m4 & t4 & z & P4 & Hz & G4 & Zc & Zs).
    pose proof (path_app _ _ _ _ _ _ _ _ _ _ _ _ P1 (path_app _ _ _ _ _ _ _ _ _ _ _ _ P2 P4)) as P.
    do 3 eexists. split; [exact P|]. split; [exact Hz|]. split; [|split; [exact Zc|]].
    - apply Forall_app. split; [exact G1|]. apply Forall_app. split; [exact G2|].
      eapply Forall_impl; [|exact G4]. intros ? ->. discriminate.
    - rewrite Zs, S2, Sc1, C1. reflexivity.
  Qed.
End Quick.

(** * Both *)
Lemma quick_start C CE E tcp ssk alg pk raw : CryptoLaws C ->
  fetch_key C ssk = KOk (alg, pk) -> pkix_marshal C pk = Some raw -> pkix_parse C raw = Some pk ->
  lenN raw <= 2 ^ 16 -> alg < 256 ->
  (forall me inputs m, tcp me = true -> wf (join m (fresh_conn C true [])) -> c_works CE -> writes_all (E me) ->
     (forall i, e_quit (E me) i = false) -> (forall i, e_fetch (E me) i = fetch_key C ssk) ->
     let start := dialling C tcp inputs m me (fetch_protocol C) in
     exists N, forall sched x, sys_run C CE E tcp me sched start = Some x ->
       (own_moves sched <= N)%nat /\ (rests C CE E tcp me x <-> own_moves sched = N) /\
       (rests C CE E tcp me x -> y_cl x = CRet (inr pk) /\ seen (c_calls (t_conn (y_srv x) me)) = []) /\
       (forall a, y_cl x = CRet a -> a = inr pk) /\ y_cl x <> CPanic) /\
  (forall me inputs m chost host csk rnd o size n f ps, tcp me = true -> wf (join m (fresh_conn C true [])) ->
     undisturbed C (knowing CE pk) (E me) chost host csk rnd ssk -> co_reply o = true -> (forall i, 0 < size i) ->
     lenN ps < 2 ^ 64 -> Forall (fun p => lenN p + 16 <= 2 ^ 30) ps ->
     (forall i p, In p ps -> e_handler (E me) i true p = HOk (f p)) ->
     Forall (fun p => f p <> [] /\ lenN (f p) + 16 <= 2 ^ 30 /\ (length (f p) <= n)%nat) ps ->
     let key := session_key C chost (uuid_of rnd) in
     let start := dialling C tcp inputs m me (quick C o host size n ps) in
     exists N, forall sched x, spares C (knowing CE pk) E tcp me key sched start ->
       sys_run C (knowing CE pk) E tcp me sched start = Some x ->
       (own_moves sched <= N)%nat /\ (rests C (knowing CE pk) E tcp me x <-> own_moves sched = N) /\
       (rests C (knowing CE pk) E tcp me x ->
          y_cl x = CRet (inr (map (fun p => Some (f p, None)) ps)) /\
          seen (c_calls (t_conn (y_srv x) me)) = numbered 1 true ps) /\
       (forall a, y_cl x = CRet a -> a = inr (map (fun p => Some (f p, None)) ps)) /\ y_cl x <> CPanic).
Proof.
  intros L Fk M PM Hl Ha. split.
  - intros me inputs m Htcp Hm W SW Q F. cbv zeta.
    destruct (fetch_path C CE (E me) alg pk raw W SW Q (fun i => eq_trans (F i) Fk) M PM Hl Ha blank (join m (fresh_conn C true [])) eq_refl eq_refl)
      as (N & t & z & P & Hz & G & Zc & Zs).
    exists N. intros sched x Hrun.
    assert (G' : Forall (good (fun _ => false)) t).
    { eapply Forall_impl; [|exact G]. intros ? ->. intros k Hk. discriminate Hk. }
    destruct (among C CE E tcp me inputs m (fun _ => false) _ _ N t z Htcp Hm P Hz G' sched x (keeps_off_none _ _ _ _ _ _ _) Hrun)
      as (B & R & D & V & NP & _).
    rewrite Zc, Zs in D. rewrite Zc in V, NP.
    split; [exact B|]. split; [exact R|]. split; [exact D|].
    split; [intros a Hc; specialize (V a Hc); injection V as V; symmetry; exact V|intros Hp; specialize (NP Hp); discriminate].
  - intros me inputs m chost host csk rnd o size n f ps Htcp Hm U Ho Hs Hn Hp Hf Hr. cbv zeta.
    destruct (quick_path C (knowing CE pk) (E me) o chost host csk rnd ssk L U Ho size n f Hs blank (join m (fresh_conn C true [])) ps
      Hm eq_refl eq_refl eq_refl eq_refl Hn Hp Hf Hr) as (N & t & z & P & Hz & G & Zc & Zs).
    exists N. intros sched x Hsp Hrun. set (key := session_key C chost (uuid_of rnd)) in *.
    assert (G' : Forall (good (fun k => bytes_eqb k key)) t).
    { eapply Forall_impl; [|exact G]. intros l Hk k ->. rewrite (Hk k eq_refl). apply bytes_eqb_refl. }
    destruct (among C (knowing CE pk) E tcp me inputs m _ _ _ N t z Htcp Hm P Hz G' sched x (spares_keeps _ _ _ _ _ _ _ _ Hsp) Hrun)
      as (B & R & D & V & NP & _).
    rewrite Zc, Zs in D. rewrite Zc in V, NP.
    split; [exact B|]. split; [exact R|]. split; [exact D|].
    split; [intros a Hc; specialize (V a Hc); injection V as V; symmetry; exact V|intros Hpn; specialize (NP Hpn); discriminate].
Qed.
