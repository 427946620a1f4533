(** From dialling to the end of the conversation. *)
From Verif Require Import Bytes BytesProofs Parser ParserProofs Crypto Kdf Wire WireProofs WireSeq WireExtra Replay SpecReplay
  ReplayProofs Server ServerSeq SpecServer ServerProofs ServerProps ServerProps2 ServerProps3 MultiConn SpecMulti Keys KeysProofs
  Client ClientSeq SpecClient ClientProofs SpecE2E E2EProofs System SpecSystem Kahn Duo DuoRun.

(** The handshake once the request was sent. *)
Definition hs_rest (C : Crypto) (pk : pubkey) (id sk : bytes) : cprog (hs_error + csession) :=
  doc rc <- clift parse_resp_common;
  match rc with
  | inl e => CRet (inl (HsParse e))
  | inr rc =>
      if negb (rs_success rc) then
        doc er <- clift (parse_error_resp rc);
        match er with
        | inl e => CRet (inl (HsParse e))
        | inr er => CRet (inl (HsRefused (er_code er) (er_msg er)))
        end
      else
        doc ss <- clift (parse_setup_resp C rc);
        match ss with
        | inl e => CRet (inl (HsParse e))
        | inr ss =>
            let transcript := setup_transcript (x_pub C sk) (ss_pub ss) id in
            match crypto_hash (ss_hash ss) with
            | None => CPanic
            | Some h =>
                match verify_signature C pk h transcript (ss_sig ss) with
                | VPanic => CPanic
                | VErr => CRet (inl HsVerify)
                | VOk false => CRet (inl HsSignature)
                | VOk true =>
                    match x_dh C sk (ss_pub ss) with
                    | None => CRet (inl HsSecret)
                    | Some secret => CRet (inr {| cs_secret := secret; cs_id := id |})
                    end
                end
            end
        end
  end.

Lemma handshake_head C host : handshake C (Some host) =
  CDo (CFetch host) (fun pk => match pk with
  | None => CRet (inl HsFetch)
  | Some pk => CDo CRand (fun rnd => match rnd with
    | None => CRet (inl HsRand)
    | Some rnd => CDo CGen (fun sk => match sk with
      | None => CRet (inl HsGen)
      | Some sk =>
          let req := enc_setup_req (new_setup_request (uuid_of rnd) (x_pub C sk)) in
          CDo (CWrite req) (fun w => let '(n, err) := w in
            if err then CRet (inl HsSend) else if negb (n =? lenN req) then CRet (inl HsSend)
            else hs_rest C pk (uuid_of rnd) sk)
      end)
    end)
  end).
Proof. reflexivity. Qed.

Section Talk.
  Variables (C : Crypto) (CE : cenv) (SE : senv) (chost host csk rnd : bytes) (ssk : privkey).
  Hypothesis L : CryptoLaws C.
  Hypothesis U : undisturbed C CE SE chost host csk rnd ssk.
  Notation q := (enc_request (RqSetup (uuid_of rnd) (x_pub C csk))).

  (** The server's side of a good handshake. *)
  Lemma hs_server ss rest : wf ss -> s_in ss = q ++ rest ->
    let '(r, ss') := srun C SE (conn_body C) ss in
    r = Some true /\ s_in ss' = rest /\ s_calls ss' = s_calls ss /\ wf ss' /\
    exists sk shared sig pk, responded ss ss' (RsSetup (x_pub C sk) 4 sig) /\ ce_fetch CE host = Some pk /\
      sig <> [] /\ lenN sig <= 2 ^ 16 /\ x_dh C csk (x_pub C sk) = Some shared /\
      verify_signature C pk SHA512 (hs_transcript C csk (x_pub C sk) rnd) sig = VOk true /\
      known C ss' chost (uuid_of rnd) = Some {| ses_secret := shared; ses_win := new_window |} /\
      exists i m, e_sign SE i SHA512 m = KOk sig.
  Proof.
    intros Hwf Hin. set (id := uuid_of rnd) in *.
    destruct (u_rand _ _ _ _ _ _ _ _ U) as [Hr Hrl].
    assert (Hid : length id = 16%nat) by (apply uuid_length, Hrl).
    assert (Hok : request_ok (RqSetup id (x_pub C csk))) by (split; [exact Hid|apply (x_pub_len _ L)]).
    pose proof (setup_spec C SE ss id (x_pub C csk) rest L Hok Hin (u_quit _ _ _ _ _ _ _ _ U _) Hwf) as SP.
    pose proof (WF_conn C SE ss Hwf) as WF'.
    destruct (srun C SE (conn_body C) ss) as [r ss'] eqn:R. cbn [snd] in WF'.
    destruct SP as (Si & Sc & [(h & i & sk & shared & j & sig & Eh & Eg & Ed & Es & [Kn _] & _ & Rs)|
      [(_ & (c & t & _ & Hreason) & _)|(h & i & sk & shared & j & Eh & Eg & Ed & _ & Hs)]]).
    - rewrite (u_host _ _ _ _ _ _ _ _ U) in Eh. injection Eh as <-.
      destruct (Rs (u_server _ _ _ _ _ _ _ _ U)) as [Rsp ->].
      split; [reflexivity|]. split; [exact Si|]. split; [exact Sc|]. split; [exact WF'|].
      destruct (u_sign _ _ _ _ _ _ _ _ U j (be_enc 4 44 ++ pkix_x25519 (x_pub C csk) ++ be_enc 4 44 ++
        pkix_x25519 (x_pub C sk) ++ id)) as (srnd & sig' & Es' & Esg & Hne & Hl).
      rewrite Es in Es'. injection Es' as <-. destruct (u_fetch _ _ _ _ _ _ _ _ U) as (alg & pk & Fk & Fc).
      assert (Tr : be_enc 4 44 ++ pkix_x25519 (x_pub C csk) ++ be_enc 4 44 ++ pkix_x25519 (x_pub C sk) ++ id =
                   setup_transcript (x_pub C csk) (x_pub C sk) id).
      { unfold setup_transcript, pkix_x25519. cbv zeta. unfold lenN. rewrite !app_length, !(x_pub_len _ L). reflexivity. }
      rewrite Tr in Esg. pose proof (sign_verify C L _ _ _ _ _ _ _ Esg Fk) as V.
      rewrite (x_dh_comm _ L) in Ed. exists sk, shared, sig, pk.
      split; [exact Rsp|]. split; [exact Fc|]. split; [exact Hne|]. split; [exact Hl|]. split; [exact Ed|]. split; [exact V|]. split; [exact Kn|].
      exists j. eexists. exact Es.
    - exfalso. destruct Hreason as [[-> [[i Hg]|(i & sk & Hg & Hd)]]|[-> [Hh|[i Hs]]]].
      + destruct (u_sgen _ _ _ _ _ _ _ _ U i) as (k & Hk & _). congruence.
      + destruct (u_sgen _ _ _ _ _ _ _ _ U i) as (k & Hk & Hd'). congruence.
      + rewrite (u_host _ _ _ _ _ _ _ _ U) in Hh. discriminate.
      + rewrite (u_store _ _ _ _ _ _ _ _ U) in Hs. discriminate.
    - exfalso. cbv zeta in Hs. set (tr := be_enc 4 44 ++ _) in Hs.
      destruct (u_sign _ _ _ _ _ _ _ _ U j tr) as (? & ? & Hs' & _).
      destruct Hs as [[Hs _]|[Hs _]]; congruence.
  Qed.

  Variable A : Type.
  Notation path := (path (duo A) (option bytes) (go_c C CE A) (go_s C SE A) uses).

  Lemma path_c1 {B} (F : cprog B -> cprog A) {R} (e : ceff R) k cs sp ss :
    (forall R (e : ceff R) k, F (CDo e k) = CDo e (fun r => F (k r))) -> c_ready e (c_in cs) = true ->
    path {| d_cl := F (CDo e k); d_cs := cs; d_sp := sp; d_ss := ss |} 1 []
         {| d_cl := F (k (fst (cexec C CE e cs))); d_cs := snd (cexec C CE e cs); d_sp := sp; d_ss := s_feed ss (c_out CE e cs) |}.
  Proof.
    intros HF Hr. eapply path_l; [|apply path_nil]. unfold go_c. cbn [d_cl d_cs d_sp d_ss]. rewrite HF, Hr.
    destruct (cexec C CE e cs); reflexivity.
  Qed.

  Lemma handshake_path cs ss (F : cprog (hs_error + csession) -> cprog A) :
    (forall R (e : ceff R) k, F (CDo e k) = CDo e (fun r => F (k r))) ->
    wf ss -> s_in ss = [] -> c_in cs = [] -> c_buf cs = [] -> c_ctr cs = 0 ->
    exists m t cs' ss' shared,
      path {| d_cl := F (handshake C (Some host)); d_cs := cs; d_sp := conn_body C; d_ss := ss |} m t
           {| d_cl := F (CRet (inr {| cs_secret := shared; cs_id := uuid_of rnd |})); d_cs := cs'; d_sp := SRet true; d_ss := ss' |} /\
      Forall (fun l => forall key, l = Some key -> key = session_key C chost (uuid_of rnd)) t /\
      s_calls ss' = s_calls ss /\ c_ctr cs' = 0 /\
      linked C chost {| cs_secret := shared; cs_id := uuid_of rnd |} [] cs' ss'.
  Proof.
    intros HF Hwf Hsi Hci Hb Hctr. set (id := uuid_of rnd) in *.
    destruct (u_rand _ _ _ _ _ _ _ _ U) as [Hr Hrl].
    assert (Hid : length id = 16%nat) by (apply uuid_length, Hrl).
    assert (Hok : request_ok (RqSetup id (x_pub C csk))) by (split; [exact Hid|apply (x_pub_len _ L)]).
    set (s0 := s_feed (s_feed ss q) [x00]).
    assert (Hin0 : s_in s0 = q ++ [x00]) by (unfold s0; cbn -[enc_request]; rewrite Hsi; reflexivity).
    assert (Hwf0 : wf s0) by (apply (wf_same ss); auto).
    pose proof (hs_server s0 [x00] Hwf0 Hin0) as HS.
    assert (TT : touches C SE (fun k => k = session_key C chost id) (conn_body C) s0).
    { apply (touch_body _ _ _ s0 (RqSetup id (x_pub C csk)) [x00] Hok Hin0 (u_quit _ _ _ _ _ _ _ _ U _)).
      cbn [after]. apply (touch_setup _ _ _ chost); [apply (u_host _ _ _ _ _ _ _ _ U)|reflexivity]. }
    destruct (srun C SE (conn_body C) s0) as [r s1] eqn:R.
    destruct HS as (-> & Si & Sc & Swf & sk & shared & sig & pk & Rsp & Fc & Hne & Hl & Hd & Hv & Kn & _).
    pose proof (u_client _ _ _ _ _ _ _ _ U) as W.
    (* up to the request *)
    set (c1 := c_add_sent (c_tick cs) q (lenN q)).
    assert (P1 : exists m, path {| d_cl := F (handshake C (Some host)); d_cs := cs; d_sp := conn_body C; d_ss := ss |} m []
      {| d_cl := F (hs_rest C pk id csk); d_cs := c1; d_sp := conn_body C; d_ss := s_feed ss q |}).
    { rewrite handshake_head. eexists.
      refine (path_app _ _ _ _ _ _ _ _ _ _ [] [] (path_c1 F (CFetch host) _ cs (conn_body C) ss HF eq_refl) _).
      cbn [cexec fst snd c_out]. rewrite s_feed_nil, Fc.
      refine (path_app _ _ _ _ _ _ _ _ _ _ [] [] (path_c1 F CRand _ cs (conn_body C) ss HF eq_refl) _).
      cbn [cexec fst snd c_out]. rewrite s_feed_nil, Hr.
      refine (path_app _ _ _ _ _ _ _ _ _ _ [] [] (path_c1 F CGen _ cs (conn_body C) ss HF eq_refl) _).
      cbn [cexec fst snd c_out]. rewrite s_feed_nil, (u_gen _ _ _ _ _ _ _ _ U). cbv zeta.
      change (enc_setup_req (new_setup_request (uuid_of rnd) (x_pub C csk))) with q.
      pose proof (path_c1 F (CWrite q) (fun w => let '(n, err) := w in
            if err then CRet (inl HsSend) else if negb (n =? lenN q) then CRet (inl HsSend)
            else hs_rest C pk id csk) cs (conn_body C) ss HF eq_refl) as P4.
      cbn [cexec fst snd c_out] in P4. pose proof (proj1 W (c_step cs) q) as [W1 W2].
      destruct (ce_write CE (c_step cs) q) as [n er]. cbn [fst snd] in *. subst er. rewrite N.min_r in P4 by exact W1.
      rewrite N.eqb_refl in P4. cbn [negb] in P4.
      assert (takeN n q = q) as E by (unfold takeN; apply N.leb_le in W1; rewrite W1; reflexivity). rewrite E in P4. exact P4. }
    destruct P1 as (m1 & P1).
    (* the server *)
    destruct (path_srun C CE SE A _ (conn_body C) (F (hs_rest C pk id csk)) c1 (s_feed ss q) x00 _ _ R
      ltac:(rewrite Si; discriminate) TT) as (m2 & t2 & out & s2 & P2 & E2 & O2 & G2).
    assert (Hsi2 : s_in s2 = []).
    { apply (@sfeed_last s2 x00 []). rewrite <- E2. exact Si. }
    assert (out = enc_response (RsSetup (x_pub C sk) 4 sig)) as ->.
    { pose proof (responded_wire C SE (conn_body C) (s_feed ss q) (s_in s0) s1 _ _ (u_server _ _ _ _ _ _ _ _ U) R Rsp) as RW.
      destruct Rsp as (k & Prs). unfold sent_by_server in RW. change (s_sent (s_feed ss q)) with (s_sent ss) in RW.
      rewrite Prs in RW, O2. change (s_sent s0) with (s_sent ss) in RW, O2.
      rewrite skipn_app_exact in RW. rewrite wire_app, RW in O2. apply app_inv_head in O2. symmetry; exact O2. }
    set (out := enc_response (RsSetup (x_pub C sk) 4 sig)) in *.
    (* the rest of the handshake *)
    destruct (handshake_ok C CE host (c_feed (c_feed cs out) [x00]) pk rnd csk (x_pub C sk) sig [x00]
        shared 4 SHA512 W Fc Hr (u_gen _ _ _ _ _ _ _ _ U)) as (c3 & Hc & Hi & Hst & Hb3 & Hct & _); auto.
    { repeat split; auto. apply (x_pub_len _ L). }
    { cbn -[enc_response]. rewrite Hci. reflexivity. }
    assert (Hc' : crun C CE (hs_rest C pk id csk) (c_feed (c_feed c1 out) [x00]) =
                  (Some (inr {| cs_secret := shared; cs_id := id |}), c3)).
    { etransitivity; [|exact Hc]. rewrite handshake_head. cbn [crun cexec]. rewrite Fc. cbn [crun cexec]. rewrite Hr. cbn [crun cexec].
      rewrite (u_gen _ _ _ _ _ _ _ _ U). cbv zeta. cbn [crun cexec].
      change (enc_setup_req (new_setup_request (uuid_of rnd) (x_pub C csk))) with q.
      change (c_step (c_feed (c_feed cs out) [x00])) with (c_step cs).
      pose proof (proj1 W (c_step cs) q) as [W1 W2].
      destruct (ce_write CE (c_step cs) q) as [n er]. cbn [fst snd] in *. subst er. rewrite N.min_r by exact W1.
      rewrite N.eqb_refl. cbn [negb]. reflexivity. }
    destruct (path_crun C CE SE A F HF (hs_rest C pk id csk) (c_feed c1 out) (SRet true) s2 x00 _ _ Hc') as (m3 & out3 & c4 & P3 & E3 & O3).
    { rewrite Hi. discriminate. }
    assert (out3 = []) as ->.
    { cbv zeta in Hst. rewrite Hst in O3. change (c_sent (c_feed (c_feed cs out) [x00])) with (c_sent cs) in O3.
      change (c_sent (c_feed c1 out)) with (c_sent cs ++ [(q, lenN q)]) in O3.
      rewrite <- (app_nil_r (wire (c_sent cs ++ [(q, lenN q)]))) in O3 at 1.
      apply app_inv_head in O3. symmetry; exact O3. }
    rewrite s_feed_nil in P3.
    pose proof (path_app _ _ _ _ _ _ _ _ _ _ _ _ P1 (path_app _ _ _ _ _ _ _ _ _ _ _ _ P2 P3)) as P.
    do 5 eexists. split; [exact P|]. split; [cbn; rewrite app_nil_r; exact G2|].
    subst s1. split; [exact Sc|].
    subst c3. change (c_ctr (c_feed c4 [x00])) with (c_ctr c4) in Hct. change (c_buf (c_feed c4 [x00])) with (c_buf c4) in Hb3.
    split; [rewrite Hct; exact Hctr|]. split; [split| | |exact Hsi2].
    - apply (wf_same (s_feed s2 [x00])); auto.
    - exact Hid.
    - exact Kn.
    - constructor.
    - rewrite Hb3. exact Hb.
    - constructor.
    - apply (@feed_last c4 x00 []). exact Hi.
  Qed.
End Talk.

Section Whole.
  Variables (C : Crypto) (CE : cenv) (SE : senv) (chost host csk rnd : bytes) (ssk : privkey) (o : copts).
  Hypothesis L : CryptoLaws C.
  Hypothesis U : undisturbed C CE SE chost host csk rnd ssk.
  Notation A := (hs_error + list rd_result)%type.
  Notation path := (path (duo A) (option bytes) (go_c C CE A) (go_s C SE A) uses).

  Lemma talk_path cs ss n f ps :
    wf ss -> s_in ss = [] -> c_in cs = [] -> c_buf cs = [] -> c_ctr cs = 0 ->
    lenN ps < 2 ^ 64 -> Forall (fun p => lenN p + 16 <= 2 ^ 30) ps ->
    (forall i p, In p ps -> e_handler SE i (co_reply o) p = HOk (f p)) ->
    (co_reply o = true -> Forall (fun p => f p <> [] /\ lenN (f p) + 16 <= 2 ^ 30 /\ lenN (f p) <= n) ps) ->
    exists m t z,
      path {| d_cl := talk C o (Some host) n ps; d_cs := cs; d_sp := conn_body C; d_ss := ss |} m t z /\
      ends _ (go_c C CE A) (go_s C SE A) z /\
      Forall (fun l => forall key, l = Some key -> key = session_key C chost (uuid_of rnd)) t /\
      d_cl z = CRet (inr (expected o f ps)) /\
      seen (s_calls (d_ss z)) = seen (s_calls ss) ++ numbered 1 (co_reply o) ps.
  Proof.
    intros Hwf Hsi Hci Hb Hctr Hlen Hp Hf Hr.
    set (F1 := fun X : cprog (hs_error + csession) => cbind X (fun h => match h with
      | inl e => CRet (inl e)
      | inr ses => doc rs <- exchange C o ses n ps; CRet (inr rs) : cprog A
      end)).
    destruct (handshake_path C CE SE chost host csk rnd ssk L U A cs ss F1 ltac:(reflexivity) Hwf Hsi Hci Hb Hctr)
      as (m1 & t1 & c1 & s1 & shared & P1 & G1 & Sc1 & C1 & L1).
    set (ses := {| cs_secret := shared; cs_id := uuid_of rnd |}) in *.
    set (F2 := fun X : cprog (list rd_result) => cbind X (fun rs => CRet (inr rs) : cprog A)).
    change (F1 (CRet (inr ses))) with (F2 (exchange C o ses n ps)) in P1.
    destruct (exchange_path C CE SE o chost A L (u_client _ _ _ _ _ _ _ _ U) (u_server _ _ _ _ _ _ _ _ U) (u_quit _ _ _ _ _ _ _ _ U)
      (u_host _ _ _ _ _ _ _ _ U) ses n f ps [] c1 s1 F2 ltac:(reflexivity) L1 ltac:(rewrite C1; lia) Hp Hf Hr)
      as (m2 & t2 & c2 & s2 & P2 & G2 & S2 & I2).
    change (F2 (CRet (expected o f ps))) with (CRet (inr (expected o f ps)) : cprog A) in P2.
    set (z1 := {| d_cl := CRet (inr (expected o f ps)) : cprog A; d_cs := c2; d_sp := SRet true; d_ss := s2 |}) in *.
    set (z2 := {| d_cl := CRet (inr (expected o f ps)) : cprog A; d_cs := c2; d_sp := conn_body C; d_ss := s2 |}).
    set (z3 := {| d_cl := CRet (inr (expected o f ps)) : cprog A; d_cs := c2; d_sp := one_request C; d_ss := tick s2 |}).
    assert (S12 : go_s C SE A z1 = Some z2) by reflexivity.
    assert (S23 : go_s C SE A z2 = Some z3).
    { unfold go_s, z2, conn_body, sdo. cbn [d_cl d_cs d_sp d_ss sbind s_ready sexec s_out]. rewrite (u_quit _ _ _ _ _ _ _ _ U), c_feed_nil. reflexivity. }
    assert (Hend : ends _ (go_c C CE A) (go_s C SE A) z3).
    { split; [reflexivity|]. unfold go_s, z3. cbn [d_cl d_cs d_sp d_ss].
      assert (s_in (tick s2) = []) as E by exact I2.
      unfold one_request, parse_req_common. cbn. rewrite I2. reflexivity. }
    exists (m1 + (m2 + 2))%nat, (t1 ++ t2 ++ [uses z1; uses z2]), z3. split.
    { eapply path_app; [exact P1|]. eapply path_app; [exact P2|].
      eapply path_r; [exact S12|]. eapply path_r; [exact S23|]. apply path_nil. }
    split; [exact Hend|]. split.
    { apply Forall_app. split; [exact G1|]. apply Forall_app. split; [exact G2|].
      constructor; [discriminate|]. constructor; [discriminate|constructor]. }
    split; [reflexivity|]. cbn [d_ss z3]. change (s_calls (tick s2)) with (s_calls s2). rewrite S2, Sc1, C1. reflexivity.
  Qed.
End Whole.
