(** A whole conversation over UDP of the two parties by themselves. *)
From Verif Require Import Bytes BytesProofs Parser ParserProofs Crypto Kdf Wire WireProofs WireSeq WireExtra Replay SpecReplay
  ReplayProofs Server ServerSeq SpecServer ServerProofs ServerProps ServerProps2 ServerProps3 MultiConn SpecMulti Keys KeysProofs
  Client ClientSeq SpecClient ClientProofs SpecE2E E2EProofs System SpecSystem Kahn Duo DuoRun DuoTalk SystemSim
  Udp SpecUdp UdpProofs UdpThms UdpSystem SpecUdpSystem UdpDuo.

(** What the goroutine for a request touches. *)
Section Touch.
Variables (C : Crypto) (SE : senv) (P : bytes -> Prop).
Notation touches := (touches C SE P).

Lemma touch_request s r rest : request_ok r -> s_in s = enc_request r ++ rest ->
  touches (after C r) (set_in s rest) -> touches (one_request C) s.
Proof.
  intros Hr Hin HT. unfold one_request. apply touches_bind. split; [apply touches_lift|]. rewrite srun_lift. rewrite Hin.
  destruct r as [| |id pub|id ctr msg reply]; cbn [enc_request request_ok after enc_response] in *.
  - rewrite req_common_rt by (split; reflexivity). cbn [fst snd]. exact HT.
  - rewrite req_common_rt by (split; reflexivity). cbn [fst snd]. exact HT.
  - destruct Hr as [Hid Hp]. unfold enc_setup_req. rewrite <- app_assoc, req_common_rt by (split; reflexivity).
    cbn [fst snd]. unfold handle. cbn [new_setup_request sr_common rq_version rq_action].
    change (version1 =? version1) with true. change (action_setup =? action_hello) with false.
    change (action_setup =? action_setup) with true. cbn iota.
    unfold setup_handler. apply touches_bind. split; [apply touches_lift|]. rewrite srun_lift. cbn [set_in s_in].
    assert (Hok : setup_req_ok (new_setup_request id pub)).
    { constructor; auto. split; reflexivity. }
    pose proof (setup_req_rt_body C (new_setup_request id pub) rest (e_end SE) Hok) as Q.
    cbn [new_setup_request sr_common sr_id sr_pub] in *. rewrite <- !app_assoc, Q. exact HT.
  - destruct Hr as (Hid & Hc & Hm). unfold enc_process_req. rewrite <- app_assoc, req_common_rt by (split; reflexivity).
    cbn [fst snd]. unfold handle. cbn [new_process_request pr_common rq_version rq_action].
    change (version1 =? version1) with true. change (action_process =? action_hello) with false.
    change (action_process =? action_setup) with false.
    change (action_process =? action_process) with true. cbn iota.
    unfold process_handler. apply touches_bind. split; [apply touches_lift|]. rewrite srun_lift. cbn [set_in s_in].
    assert (Hok : process_req_ok (new_process_request id ctr msg reply)).
    { constructor; auto; try reflexivity. split; reflexivity. }
    pose proof (process_req_rt_body (new_process_request id ctr msg reply) rest (e_end SE) Hok) as Q.
    unfold process_flags in Q.
    cbn [new_process_request pr_common pr_reply pr_reserved pr_id pr_counter pr_size pr_msg] in *.
    rewrite <- !app_assoc. cbn [app]. rewrite Q. exact HT.
Qed.
End Touch.

(** Lengths of messages. *)
Lemma len_process_req id c ct rp : length id = 16%nat -> lenN (enc_request (RqProcess id c ct rp)) = lenN ct + 34.
Proof.
  intros Hid. cbn [enc_request]. unfold enc_process_req, new_process_request, enc_req_common. cbn [pr_common pr_id pr_counter pr_size pr_msg].
  rewrite !lenN_app, !lenN_cons, !be_enc_lenN, lenN_nil. unfold lenN at 1. rewrite Hid. lia.
Qed.
Lemma len_process_resp c m : lenN (enc_response (RsProcess c m)) = lenN m + 17.
Proof.
  cbn [enc_response]. unfold enc_process_resp, new_process_response, enc_resp_common.
  cbn [ps_common ps_counter ps_size ps_msg rs_success].
  rewrite !lenN_app, !lenN_cons, !be_enc_lenN, lenN_nil. lia.
Qed.

Lemma len_setup_req id pub : length id = 16%nat -> length pub = 32%nat -> lenN (enc_request (RqSetup id pub)) = 65.
Proof.
  intros Hid Hp. cbn [enc_request]. unfold enc_setup_req, new_setup_request, enc_req_common, pkix_x25519, lenN. cbn [sr_common sr_id sr_pub].
  rewrite !app_length, be_enc_length, Hid, Hp. reflexivity.
Qed.
Lemma len_setup_resp pub h sig : length pub = 32%nat -> sig <> [] -> lenN (enc_response (RsSetup pub h sig)) = lenN sig + 54.
Proof.
  intros Hp Hs. cbn [enc_response]. unfold enc_setup_resp, new_setup_response, enc_resp_common, pkix_x25519. cbn [ss_common ss_pub ss_sig ss_hash rs_success].
  destruct sig as [|x sig]; [congruence|]. replace (0 <? lenN (x :: sig)) with true by (symmetry; apply N.ltb_lt; rewrite lenN_cons; lia).
  rewrite !lenN_app, !be_enc_lenN, !lenN_cons, lenN_nil. unfold lenN at 1 2. rewrite Hp. cbn. lia.
Qed.

Lemma shift_writes k E : writes_all E -> writes_all (shift k E).
Proof. intros W i b. apply (W (pred i) b). Qed.
Lemma shift_quit k E : (forall i, e_quit E i = false) -> forall i, e_quit (shift k E) i = false.
Proof. intros Q i. cbn. destruct (Nat.eqb i k); [reflexivity|apply Q]. Qed.
Lemma shift_undisturbed C CE SE chost host csk rnd ssk k : undisturbed C CE SE chost host csk rnd ssk ->
  undisturbed C CE (shift k SE) chost host csk rnd ssk.
Proof.
  intros [U1 U2 U3 U4 U5 U6 U7 U8 U9 U10]. split; auto.
  - apply shift_writes, U5.
  - apply shift_quit, U6.
  - intros i. apply U8.
  - intros i. apply U9.
  - intros i. apply U10.
Qed.

Lemma mem_join m c : mem_of (join m c) = m.
Proof. destruct m; reflexivity. Qed.

Section Run.
  Variables (C : Crypto) (CE : cenv) (SE : nat -> senv) (chunk : nat -> N) (srv : bytes) (o : copts) (chost : bytes) (A : Type).
  Hypothesis L : CryptoLaws C.
  Hypothesis WC : forall i, ce_deadline CE i = true.
  Hypothesis WS : forall k, writes_all (SE k).
  Hypothesis Hh : forall k, e_host (SE k) = Some chost.
  Hypothesis Ho : co_reply o = true.
  Notation path := (path (uduo A) (option bytes) (ugo_c C CE chunk A) (ugo_s C SE srv A) (uuses A)).

  Record ulinked (ses : csession) (hist : list N) (cs : cst) (cx : udpc * unet) (m : mem) : Prop := {
    ul_paired : paired C ses chost hist cs (join m (fresh_conn C false []));
    ul_hist : Forall (fun c => c <= c_ctr cs) hist;
    ul_client : udp_client (fst cx);
    ul_open : n_closed (snd cx) = false;
    ul_in : n_in (snd cx) = [] }.

  Lemma waits_read (F : cprog rd_result -> cprog A) ses n s : (forall R (e : ceff R) k, F (CDo e k) = CDo e (fun r => F (k r))) ->
    c_buf s = [] -> waits C CE (F (client_read C o ses n)) s = true.
  Proof.
    intros HF Hb. unfold client_read. set (G := fun ok : bool => _).
    assert (HG : forall s, c_buf s = [] -> waits C CE (F (G true)) s = true).
    { intros s0 Hb0. unfold G. cbn [negb cbind cdo]. rewrite HF. cbn [waits is_read is_write cexec fst snd]. rewrite Hb0.
      change (0 <? lenN []) with false. cbv iota. unfold parse_resp_common, pcopy1. cbn [pbind clift cbind]. rewrite HF. reflexivity. }
    destruct (co_rto o); cbn [cbind cdo]; [|apply HG, Hb]. rewrite HF. cbn [waits is_read is_write cexec fst snd]. rewrite WC. apply HG. exact Hb.
  Qed.

  (** One message. *)
  Lemma uround_path ses hist cs cx m p n f (F : cprog (list rd_result) -> cprog A) ps k ca :
    (forall R (e : ceff R) k, F (CDo e k) = CDo e (fun r => F (k r))) ->
    ulinked ses hist cs cx m -> c_ctr cs + 1 < 2 ^ 64 -> lenN p + 50 <= 65507 ->
    (forall k i, e_handler (SE k) i true p = HOk (f p)) ->
    f p <> [] /\ lenN (f p) + 33 <= 65507 /\ lenN (f p) <= n ->
    exists N t cs' cx' m',
      path {| w_cl := F (exchange C o ses n (p :: ps)); w_cx := cx; w_cs := cs; w_mode := UIdle m; w_k := k; w_calls := ca |} N t
           {| w_cl := F (cbind (exchange C o ses n ps) (fun rs => CRet (RdOk (f p) true :: rs)));
              w_cx := cx'; w_cs := cs'; w_mode := UIdle m'; w_k := S k; w_calls := ca ++ [(c_ctr cs + 1, true, p)] |} /\
      Forall (fun l => forall key, l = Some key -> key = session_key C chost (cs_id ses)) t /\
      c_ctr cs' = c_ctr cs + 1 /\ ulinked ses (hist ++ [c_ctr cs + 1]) cs' cx' m'.
  Proof.
    intros HF [[Hwf Hid Hkn Hhist Hbuf] Hle Hcl Hop Hci] Hc Hp Hf (Hne & Hlo & Hln).
    assert (Hnr : ~ refused_after hist (c_ctr cs + 1)) by (apply next_not_refused, Hle).
    set (c := c_ctr cs + 1) in *.
    destruct (client_gcm_some C L (cs_secret ses)) as (key & K).
    set (ct := gcm_seal C key (gcm_nonce dir_c2s c) p).
    set (q := enc_request (RqProcess (cs_id ses) c ct true)).
    assert (Hct : lenN ct = lenN p + 16) by (unfold ct; rewrite (gcm_seal_len _ L); lia).
    assert (Hfit : fits q = true).
    { unfold fits. apply N.leb_le. unfold q. rewrite len_process_req by exact Hid. lia. }
    set (Fw := fun X : cprog wr_result => F (cbind X (fun w => match w with
      | WrConn _ false =>
          if co_reply o then
            doc r <- client_read C o ses n;
            doc rs <- exchange C o ses n ps;
            CRet (r :: rs)
          else exchange C o ses n ps
      | _ => CRet []
      end))).
    change (F (exchange C o ses n (p :: ps))) with (Fw (client_write C o ses p)).
    assert (HFw : forall R (e : ceff R) k, Fw (CDo e k) = CDo e (fun r => Fw (k r))) by (intros; unfold Fw; cbn [cbind]; apply HF).
    set (Fr := fun X : cprog rd_result => F (cbind X (fun r => doc rs <- exchange C o ses n ps; CRet (r :: rs)))).
    assert (HFr : forall R (e : ceff R) k, Fr (CDo e k) = CDo e (fun r => Fr (k r))) by (intros; unfold Fr; cbn [cbind]; apply HF).
    (* the client writes *)
    assert (P1 : exists N1 c1, path {| w_cl := Fw (client_write C o ses p); w_cx := cx; w_cs := cs; w_mode := UIdle m; w_k := k; w_calls := ca |} N1 []
        {| w_cl := Fr (client_read C o ses n); w_cx := wrote q cx; w_cs := c1; w_mode := UQueued m q; w_k := k; w_calls := ca |} /\
        c_ctr c1 = c /\ c_last c1 = c /\ c_buf c1 = []).
    { unfold client_write. set (G := fun ok : bool => _).
      assert (HG : forall s, c_ctr s = c_ctr cs -> c_buf s = [] -> exists N1 c1,
          path {| w_cl := Fw (G true); w_cx := cx; w_cs := s; w_mode := UIdle m; w_k := k; w_calls := ca |} N1 []
          {| w_cl := Fr (client_read C o ses n); w_cx := wrote q cx; w_cs := c1; w_mode := UQueued m q; w_k := k; w_calls := ca |} /\
          c_ctr c1 = c /\ c_last c1 = c /\ c_buf c1 = []).
      { intros s Hs Hbs. unfold G. cbn [negb]. rewrite K.
        eexists. eexists. split.
        - refine (path_app _ _ _ _ _ _ _ _ _ _ [] [] (upath_local C CE SE chunk srv A Fw CAdd _ cx s (UIdle m) k ca HFw eq_refl) _).
          cbn [cexec fst snd]. rewrite Hs. fold c. rewrite N.mod_small by exact Hc.
          replace (c =? 0) with false by (symmetry; apply N.eqb_neq; unfold c; lia).
          refine (path_app _ _ _ _ _ _ _ _ _ _ [] [] (upath_local C CE SE chunk srv A Fw (CSetLast c) _ cx _ (UIdle m) k ca HFw eq_refl) _).
          cbn [cexec fst snd].
          refine (path_app _ _ _ _ _ _ _ _ _ _ [] [] (upath_local C CE SE chunk srv A Fw (CSeal c key (gcm_nonce dir_c2s c) p) _ cx _ (UIdle m) k ca HFw eq_refl) _).
          cbn [cexec fst snd]. fold ct. destruct cx as [u net]. cbn [fst snd] in *. rewrite Ho.
          change (enc_process_req (new_process_request (cs_id ses) c ct true)) with q.
          pose proof (upath_write C CE SE chunk srv A Fw q (fun w => CRet (WrConn (fst w) (snd w))) u net
            (c_add_seal (c_set_last (c_set_ctr s c) c) (c, key, gcm_nonce dir_c2s c, p)) m k ca HFw Hcl Hop Hci Hfit) as PW.
          assert (EF : Fw (CRet (WrConn (lenN q) false)) = Fr (client_read C o ses n)).
          { unfold Fw, Fr. cbn [cbind]. rewrite Ho. reflexivity. }
          cbn [fst snd] in PW. rewrite EF in PW. apply PW. apply waits_read; [exact HFr|]. exact Hbs.
        - cbn. auto. }
      destruct (co_wto o); cbn [cbind cdo].
      - destruct (HG (c_tick cs) eq_refl Hbuf) as (N1 & c1 & PG & HG').
        exists (1 + N1)%nat, c1. split; [|exact HG'].
        refine (path_app _ _ _ _ _ _ _ _ _ _ [] [] (upath_local C CE SE chunk srv A Fw CDeadline _ cx cs (UIdle m) k ca HFw eq_refl) _).
        cbn [cexec fst snd]. rewrite WC. exact PG.
      - apply HG; [reflexivity|exact Hbuf]. }
    destruct P1 as (N1 & c1 & P1 & C1 & L1 & B1).
    (* the server *)
    set (s0 := join m (fresh_conn C false q)).
    assert (Hin0 : s_in s0 = q ++ []) by (rewrite app_nil_r; reflexivity).
    assert (Hok : request_ok (RqProcess (cs_id ses) c ct true)).
    { split; [exact Hid|]. split; [exact Hc|]. unfold max_message_size. lia. }
    assert (Hwf0 : wf s0) by (apply (wf_same (join m (fresh_conn C false []))); auto).
    set (E0 := shift (s_step s0) (SE k)).
    assert (Q0 : e_quit E0 (s_step s0) = false) by (cbn [E0 shift e_quit]; rewrite Nat.eqb_refl; reflexivity).
    assert (W0 : writes_all E0) by apply shift_writes, WS.
    pose proof (process_accepted C E0 s0 chost (cs_id ses) ct [] c true Hok Hin0 Q0 (Hh k)) as PA.
    specialize (PA _ hist Hkn Hhist eq_refl Hwf0 Hnr key (eq_trans (eq_sym (client_server_gcm C _)) K) p (gcm_open_seal _ L _ _ _)).
    pose proof (WF_conn C E0 s0 Hwf0) as WF'.
    unfold E0 in PA, WF'. rewrite one_request_conn in PA, WF'. fold E0 in PA, WF'.
    destruct (srun C (SE k) (one_request C) s0) as [res s1] eqn:R. cbn [fst snd] in PA, WF'.
    destruct PA as ((ptr & Pc) & [Pk Pother] & Pin & i & Pr).
    change (e_handler E0 i true p) with (e_handler (SE k) (pred i) true p) in Pr. rewrite Hf in Pr. cbv zeta in Pr.
    destruct Pr as [_ Pr]. destruct (Pr W0) as [(kk & Prs) ->].
    set (rc := gcm_seal C key (gcm_nonce dir_s2c c) (f p)) in *.
    set (out := enc_response (RsProcess c rc)) in *.
    assert (Hkk : kk = lenN out).
    { destruct (srun_new_full C (SE k) (one_request C) s0 (WS k)) as (l & Hl & Fl). rewrite R in Hl. cbn [snd] in Hl.
      change (s_sent (tick s1)) with (s_sent s1) in Prs. rewrite Prs in Hl. apply app_inv_head in Hl. subst l.
      inversion Fl as [|? ? F1 _]. unfold full in F1. exact F1. }
    assert (Hout : wire (s_sent s1) = out).
    { change (s_sent (tick s1)) with (s_sent s1) in Prs. rewrite Prs. change (s_sent s0) with (@nil (bytes * N)). cbn [app].
      rewrite Duo.wire_one, Hkk. apply takeN_all. }
    assert (TT : touches C (SE k) (fun k => k = session_key C chost (cs_id ses)) (one_request C) s0).
    { apply (touch_request _ _ _ s0 (RqProcess (cs_id ses) c ct true) [] Hok Hin0).
      cbn [after]. apply (touch_process _ _ _ chost); [apply Hh|reflexivity]. }
    destruct (upath_serve C CE SE chunk srv A _ m q (Fr (client_read C o ses n)) (wrote q cx) c1 k ca _ _ R TT) as (N2 & t2 & P2 & G2).
    rewrite Hout in P2.
    assert (Hofit : fits out = true).
    { unfold fits. apply N.leb_le. unfold out. rewrite len_process_resp. unfold rc. rewrite (gcm_seal_len _ L). lia. }
    assert (Hone : out <> []) by apply enc_response_ne.
    assert (Hdel : deliver srv out (wrote q cx) = (fst (wrote q cx), arrive srv out (snd (wrote q cx)))).
    { unfold deliver. rewrite Hofit. destruct out; [congruence|reflexivity]. }
    rewrite Hdel in P2.
    assert (Hseen : seen (s_calls s1) = [(c, true, p)]).
    { change (s_calls (tick s1)) with (s_calls s1) in Pc. rewrite Pc. reflexivity. }
    rewrite Hseen in P2.
    (* the client reads *)
    assert (Hh1 : holds (fst (wrote q cx)) (arrive srv out (snd (wrote q cx))) out []).
    { right. cbn. split; [reflexivity|]. split; [exact Hop|]. exists srv. rewrite Hci. reflexivity. }
    destruct (read_fresh_run C (eof_env CE) o ses n (c_set_in c1 out) out [] c rc key (eof_works CE WC)) as (r & c3 & Rr & Ri & (Rw1 & Rw2 & Rw3 & Rw4) & Rb).
    { exact B1. }
    { rewrite app_nil_r. reflexivity. }
    { exists x80. split; [reflexivity|]. split; [cbn; lia|]. split; [exact Hc|]. unfold rc. rewrite (gcm_seal_len _ L). unfold max_message_size. lia. }
    { exact K. }
    change (c_last (c_set_in c1 out)) with (c_last c1) in Rb. rewrite L1, N.eqb_refl in Rb. unfold rc in Rb. rewrite (gcm_open_seal _ L) in Rb.
    assert (r = RdOk (f p) true /\ c_buf c3 = []) as [-> Hb3].
    { destruct (f p) as [|y z]; [congruence|]. destruct Rb as [-> ->]. apply N.leb_le in Hln. unfold takeN, dropN. rewrite Hln. auto. }
    destruct (upath_reads C CE SE chunk srv A Fr HFr (client_read C o ses n) (nowrite_read C o ses n) _ _ c1 out [] (mem_of s1) (S k)
      (ca ++ [(c, true, p)]) _ _ Hh1 Rr) as (N3 & u' & net' & c4 & P3 & E3 & H3 & R3 & D3).
    assert (Hnin : n_in net' = []).
    { rewrite Ri in H3, D3. destruct H3 as [(_ & _ & X)|(X & _ & _)]; [exact X|]. exfalso. apply Hone. symmetry. apply D3, X. }
    pose proof (path_app _ _ _ _ _ _ _ _ _ _ _ _ P1 (path_app _ _ _ _ _ _ _ _ _ _ _ _ P2 P3)) as P.
    do 5 eexists. split; [exact P|]. split; [cbn; rewrite app_nil_r; exact G2|].
    assert (Hc4 : c_ctr c4 = c).
    { rewrite E3 in Rw2. change (c_ctr c4 = c_ctr c1) in Rw2. congruence. }
    split; [exact Hc4|]. split; [split| | | |].
    - apply (wf_same (tick s1)); auto.
    - exact Hid.
    - exact Pk.
    - apply Forall_app. split; [exact Hhist|]. constructor; [exact Hc|constructor].
    - rewrite E3 in Hb3. exact Hb3.
    - rewrite Hc4. apply Forall_app. split; [|constructor; [lia|constructor]]. rewrite Forall_forall in *. intros x Hx. apply Hle in Hx. unfold c. lia.
    - cbn [fst]. apply R3. cbn. exact Hcl.
    - cbn [snd]. destruct R3 as (_ & -> & _). exact Hop.
    - exact Hnin.
  Qed.

  (** Any number of messages. *)
  Lemma uexchange_path ses n f : forall ps hist cs cx m k ca (F : cprog (list rd_result) -> cprog A),
    (forall R (e : ceff R) k, F (CDo e k) = CDo e (fun r => F (k r))) ->
    ulinked ses hist cs cx m -> c_ctr cs + lenN ps < 2 ^ 64 -> Forall (fun p => lenN p + 50 <= 65507) ps ->
    (forall k i p, In p ps -> e_handler (SE k) i true p = HOk (f p)) ->
    Forall (fun p => f p <> [] /\ lenN (f p) + 33 <= 65507 /\ lenN (f p) <= n) ps ->
    exists N t cs' cx' m' k',
      path {| w_cl := F (exchange C o ses n ps); w_cx := cx; w_cs := cs; w_mode := UIdle m; w_k := k; w_calls := ca |} N t
           {| w_cl := F (CRet (expected o f ps)); w_cx := cx'; w_cs := cs'; w_mode := UIdle m'; w_k := k';
              w_calls := ca ++ numbered (c_ctr cs + 1) true ps |} /\
      Forall (fun l => forall key, l = Some key -> key = session_key C chost (cs_id ses)) t.
  Proof.
    assert (Ex : forall p ps, expected o f (p :: ps) = RdOk (f p) true :: expected o f ps) by (intros; unfold expected; rewrite Ho; reflexivity).
    induction ps as [|p ps IH]; intros hist cs cx m k ca F HF Hl Hc Hp Hf Hr.
    - exists 0%nat, [], cs, cx, m, k. split; [|constructor].
      unfold expected. cbn [map numbered]. rewrite app_nil_r, Ho. apply path_nil.
    - rewrite lenN_cons in Hc. inversion Hp as [|? ? Hp1 Hp2]; subst. inversion Hr as [|? ? Hr1 Hr2]; subst.
      destruct (uround_path ses hist cs cx m p n f F ps k ca HF Hl ltac:(lia) Hp1 (fun k i => Hf k i p (or_introl eq_refl)) Hr1)
        as (N1 & t & c1 & x1 & m1 & P1 & G1 & C1 & L1).
      set (F2 := fun X => F (cbind X (fun rs => CRet (RdOk (f p) true :: rs)))).
      assert (HF2 : forall R (e : ceff R) k, F2 (CDo e k) = CDo e (fun r => F2 (k r))).
      { intros. unfold F2. cbn [cbind]; apply HF. }
      destruct (IH _ c1 x1 m1 (S k) (ca ++ [(c_ctr cs + 1, true, p)]) F2 HF2 L1 ltac:(lia) Hp2 (fun k i p' Hi => Hf k i p' (or_intror Hi)) Hr2)
        as (N2 & t' & c2 & x2 & m2 & k2 & P2 & G2).
      exists (N1 + N2)%nat, (t ++ t'), c2, x2, m2, k2. split.
      + eapply path_app; [exact P1|]. rewrite Ex. cbn [numbered]. rewrite <- app_assoc, C1 in P2. exact P2.
      + apply Forall_app; auto.
  Qed.
End Run.

Lemma nowrite_rest C pk id sk : nowrite (hs_rest C pk id sk).
Proof.
  unfold hs_rest. apply nowrite_bind; [apply nowrite_lift|]. intros [e|rc]; [exact I|].
  destruct (negb (rs_success rc)).
  - apply nowrite_bind; [apply nowrite_lift|]. intros [e|er]; exact I.
  - apply nowrite_bind; [apply nowrite_lift|]. intros [e|ss]; [exact I|].
    destruct (crypto_hash (ss_hash ss)); [|exact I]. destruct (verify_signature _ _ _ _ _) as [[|]| |]; try exact I.
    destruct (x_dh _ _ _); exact I.
Qed.

Section Talk.
  Variables (C : Crypto) (CE : cenv) (SE : nat -> senv) (chunk : nat -> N) (srv chost host csk rnd : bytes) (ssk : privkey).
  Hypothesis L : CryptoLaws C.
  Hypothesis U : forall k, undisturbed C CE (SE k) chost host csk rnd ssk.
  Hypothesis Hsig : forall k i m sig, e_sign (SE k) i SHA512 m = KOk sig -> lenN sig + 54 <= 65507.
  Notation q := (enc_request (RqSetup (uuid_of rnd) (x_pub C csk))).
  Variable A : Type.
  Notation path := (path (uduo A) (option bytes) (ugo_c C CE chunk A) (ugo_s C SE srv A) (uuses A)).

  Lemma waits_rest (F : cprog (hs_error + csession) -> cprog A) pk id sk s :
    (forall R (e : ceff R) k, F (CDo e k) = CDo e (fun r => F (k r))) -> waits C CE (F (hs_rest C pk id sk)) s = true.
  Proof. intros HF. unfold hs_rest, parse_resp_common, pcopy1. cbn [pbind clift cbind]. rewrite HF. reflexivity. Qed.

  Lemma uhandshake_path cs cx m k ca (F : cprog (hs_error + csession) -> cprog A) :
    (forall R (e : ceff R) k, F (CDo e k) = CDo e (fun r => F (k r))) ->
    wf (join m (fresh_conn C false [])) -> udp_client (fst cx) -> n_closed (snd cx) = false -> n_in (snd cx) = [] ->
    c_buf cs = [] -> c_ctr cs = 0 ->
    exists N t cs' cx' m' shared,
      path {| w_cl := F (handshake C (Some host)); w_cx := cx; w_cs := cs; w_mode := UIdle m; w_k := k; w_calls := ca |} N t
           {| w_cl := F (CRet (inr {| cs_secret := shared; cs_id := uuid_of rnd |})); w_cx := cx'; w_cs := cs'; w_mode := UIdle m';
              w_k := S k; w_calls := ca |} /\
      Forall (fun l => forall key, l = Some key -> key = session_key C chost (uuid_of rnd)) t /\
      c_ctr cs' = 0 /\ ulinked C chost {| cs_secret := shared; cs_id := uuid_of rnd |} [] cs' cx' m'.
  Proof.
    intros HF Hwf Hcl Hop Hci Hb Hctr. set (id := uuid_of rnd) in *.
    destruct (u_rand _ _ _ _ _ _ _ _ (U k)) as [Hr Hrl].
    assert (Hid : length id = 16%nat) by (apply uuid_length, Hrl).
    assert (Hok : request_ok (RqSetup id (x_pub C csk))) by (split; [exact Hid|apply (x_pub_len _ L)]).
    pose proof (u_client _ _ _ _ _ _ _ _ (U k)) as W.
    set (s0 := join m (fresh_conn C false q)).
    assert (Hin0 : s_in s0 = q ++ []) by (rewrite app_nil_r; reflexivity).
    assert (Hwf0 : wf s0) by (apply (wf_same (join m (fresh_conn C false []))); auto).
    pose proof (hs_server C CE (shift (s_step s0) (SE k)) chost host csk rnd ssk L (shift_undisturbed _ _ _ _ _ _ _ _ _ (U k)) s0 [] Hwf0 Hin0) as HS.
    rewrite one_request_conn in HS.
    assert (TT : touches C (SE k) (fun k => k = session_key C chost id) (one_request C) s0).
    { apply (touch_request _ _ _ s0 (RqSetup id (x_pub C csk)) [] Hok Hin0).
      cbn [after]. apply (touch_setup _ _ _ chost); [apply (u_host _ _ _ _ _ _ _ _ (U k))|reflexivity]. }
    destruct (srun C (SE k) (one_request C) s0) as [r s1] eqn:R. cbn [fst snd] in HS.
    destruct HS as (-> & Si & Sc & Swf & sk & shared & sig & pk & (kk & Rsp) & Fc & Hne & Hl & Hd & Hv & Kn & si & sm & Hsg).
    set (out := enc_response (RsSetup (x_pub C sk) 4 sig)) in *.
    assert (Hkk : kk = lenN out).
    { destruct (srun_new_full C (SE k) (one_request C) s0 (u_server _ _ _ _ _ _ _ _ (U k))) as (l & Hl' & Fl). rewrite R in Hl'. cbn [snd] in Hl'.
      change (s_sent (tick s1)) with (s_sent s1) in Rsp. rewrite Rsp in Hl'. apply app_inv_head in Hl'. subst l.
      inversion Fl as [|? ? F1 _]. unfold full in F1. exact F1. }
    assert (Hout : wire (s_sent s1) = out).
    { change (s_sent (tick s1)) with (s_sent s1) in Rsp. rewrite Rsp. change (s_sent s0) with (@nil (bytes * N)). cbn [app].
      rewrite Duo.wire_one, Hkk. apply takeN_all. }
    assert (Hofit : fits out = true).
    { unfold fits. apply N.leb_le. unfold out. rewrite len_setup_resp; [|apply (x_pub_len _ L)|exact Hne]. exact (Hsig k (pred si) sm sig Hsg). }
    assert (Hone : out <> []) by apply enc_response_ne.
    assert (Hqfit : fits q = true).
    { unfold fits. apply N.leb_le. rewrite len_setup_req; [lia|exact Hid|apply (x_pub_len _ L)]. }
    (* up to the request *)
    set (c1 := c_add_sent (c_tick cs) q (lenN q)).
    assert (P1 : exists N1, path {| w_cl := F (handshake C (Some host)); w_cx := cx; w_cs := cs; w_mode := UIdle m; w_k := k; w_calls := ca |} N1 []
      {| w_cl := F (hs_rest C pk id csk); w_cx := wrote q cx; w_cs := c1; w_mode := UQueued m q; w_k := k; w_calls := ca |}).
    { rewrite handshake_head. eexists.
      refine (path_app _ _ _ _ _ _ _ _ _ _ [] [] (upath_local C CE SE chunk srv A F (CFetch host) _ cx cs (UIdle m) k ca HF eq_refl) _).
      cbn [cexec fst snd]. rewrite Fc.
      refine (path_app _ _ _ _ _ _ _ _ _ _ [] [] (upath_local C CE SE chunk srv A F CRand _ cx cs (UIdle m) k ca HF eq_refl) _).
      cbn [cexec fst snd]. rewrite Hr.
      refine (path_app _ _ _ _ _ _ _ _ _ _ [] [] (upath_local C CE SE chunk srv A F CGen _ cx cs (UIdle m) k ca HF eq_refl) _).
      cbn [cexec fst snd]. rewrite (u_gen _ _ _ _ _ _ _ _ (U k)). cbv zeta.
      change (enc_setup_req (new_setup_request (uuid_of rnd) (x_pub C csk))) with q.
      destruct cx as [u net]. cbn [fst snd] in *.
      pose proof (upath_write C CE SE chunk srv A F q (fun w => let '(n, err) := w in
            if err then CRet (inl HsSend) else if negb (n =? lenN q) then CRet (inl HsSend)
            else hs_rest C pk id csk) u net cs m k ca HF Hcl Hop Hci Hqfit) as PW.
      cbn iota beta in PW. rewrite N.eqb_refl in PW. cbn [negb] in PW. apply PW. apply waits_rest. exact HF. }
    destruct P1 as (N1 & P1).
    destruct (upath_serve C CE SE chunk srv A _ m q (F (hs_rest C pk id csk)) (wrote q cx) c1 k ca _ _ R TT) as (N2 & t2 & P2 & G2).
    assert (Hdel : deliver srv out (wrote q cx) = (fst (wrote q cx), arrive srv out (snd (wrote q cx)))).
    { unfold deliver. rewrite Hofit. destruct out; [congruence|reflexivity]. }
    assert (Hseen : seen (s_calls s1) = []).
    { change (s_calls (tick s1)) with (s_calls s1) in Sc. rewrite Sc. reflexivity. }
    rewrite Hout, Hdel, Hseen, app_nil_r in P2.
    assert (Hh1 : holds (fst (wrote q cx)) (arrive srv out (snd (wrote q cx))) out []).
    { right. cbn -[enc_request]. split; [reflexivity|]. split; [exact Hop|]. exists srv. rewrite Hci. reflexivity. }
    (* the rest of the handshake *)
    pose proof (eof_works CE (proj2 W)) as We.
    destruct (handshake_ok C (eof_env CE) host (c_set_in cs out) pk rnd csk (x_pub C sk) sig []
        shared 4 SHA512 We Fc Hr (u_gen _ _ _ _ _ _ _ _ (U k))) as (c3 & Hc & Hi & Hst & Hb3 & Hct & _); auto.
    { repeat split; auto. apply (x_pub_len _ L). }
    { rewrite app_nil_r. reflexivity. }
    assert (Hc' : crun C (eof_env CE) (hs_rest C pk id csk) (c_set_in c1 out) =
                  (Some (inr {| cs_secret := shared; cs_id := id |}), c3)).
    { etransitivity; [|exact Hc]. unfold handshake.
      assert (X1 : ce_fetch (eof_env CE) host = Some pk) by exact Fc. assert (X2 : ce_rand (eof_env CE) = Some rnd) by exact Hr.
      assert (X3 : ce_gen (eof_env CE) = Some csk) by exact (u_gen _ _ _ _ _ _ _ _ (U k)).
      rewrite crun_do. cbn [cexec fst snd]. rewrite X1. rewrite crun_do. cbn [cexec fst snd]. rewrite X2.
      rewrite crun_do. cbn [cexec fst snd]. rewrite X3. cbv zeta. rewrite crun_do. cbn [cexec].
      change (enc_setup_req (new_setup_request (uuid_of rnd) (x_pub C csk))) with q.
      cbn [ce_write eof_env]. rewrite N.min_id. cbn [fst snd]. rewrite N.eqb_refl. cbn [negb]. reflexivity. }
    destruct (upath_reads C CE SE chunk srv A F HF (hs_rest C pk id csk) (nowrite_rest C pk id csk) _ _ c1 out [] (mem_of s1) (S k)
      ca _ _ Hh1 Hc') as (N3 & u' & net' & c4 & P3 & E3 & H3 & R3 & D3).
    assert (Hnin : n_in net' = []).
    { rewrite Hi in H3, D3. destruct H3 as [(_ & _ & X)|(X & _ & _)]; [exact X|]. exfalso. apply Hone. symmetry. apply D3, X. }
    pose proof (path_app _ _ _ _ _ _ _ _ _ _ _ _ P1 (path_app _ _ _ _ _ _ _ _ _ _ _ _ P2 P3)) as P.
    do 6 eexists. split; [exact P|]. split; [cbn; rewrite app_nil_r; exact G2|].
    rewrite E3 in Hb3, Hct. change (c_ctr c4 = c_ctr cs) in Hct. change (c_buf c4 = c_buf cs) in Hb3.
    split; [congruence|]. split; [split| | | |].
    - apply (wf_same (tick s1)); auto.
    - exact Hid.
    - exact Kn.
    - constructor.
    - congruence.
    - constructor.
    - cbn [fst]. apply R3. cbn -[enc_request]. exact Hcl.
    - cbn [snd]. destruct R3 as (_ & -> & _). exact Hop.
    - exact Hnin.
  Qed.
End Talk.

Section Whole.
  Variables (C : Crypto) (CE : cenv) (SE : nat -> senv) (chunk : nat -> N) (srv chost host csk rnd : bytes) (ssk : privkey) (o : copts).
  Hypothesis L : CryptoLaws C.
  Hypothesis U : forall k, undisturbed C CE (SE k) chost host csk rnd ssk.
  Hypothesis Hsig : forall k i m sig, e_sign (SE k) i SHA512 m = KOk sig -> lenN sig + 54 <= 65507.
  Hypothesis Ho : co_reply o = true.
  Notation A := (hs_error + list rd_result)%type.
  Notation path := (path (uduo A) (option bytes) (ugo_c C CE chunk A) (ugo_s C SE srv A) (uuses A)).

  Lemma utalk_path cs cx m n f ps :
    wf (join m (fresh_conn C false [])) -> udp_client (fst cx) -> n_closed (snd cx) = false -> n_in (snd cx) = [] ->
    c_buf cs = [] -> c_ctr cs = 0 ->
    lenN ps < 2 ^ 64 -> Forall (fun p => lenN p + 50 <= 65507) ps ->
    (forall k i p, In p ps -> e_handler (SE k) i true p = HOk (f p)) ->
    Forall (fun p => f p <> [] /\ lenN (f p) + 33 <= 65507 /\ lenN (f p) <= n) ps ->
    exists N t z,
      path {| w_cl := talk C o (Some host) n ps; w_cx := cx; w_cs := cs; w_mode := UIdle m; w_k := 0; w_calls := [] |} N t z /\
      ends _ (ugo_c C CE chunk A) (ugo_s C SE srv A) z /\
      Forall (fun l => forall key, l = Some key -> key = session_key C chost (uuid_of rnd)) t /\
      w_cl z = CRet (inr (expected o f ps)) /\ w_calls z = numbered 1 true ps.
  Proof.
    intros Hwf Hcl Hop Hci Hb Hctr Hlen Hp Hf Hr.
    set (F1 := fun X : cprog (hs_error + csession) => cbind X (fun h => match h with
      | inl e => CRet (inl e)
      | inr ses => doc rs <- exchange C o ses n ps; CRet (inr rs) : cprog A
      end)).
    destruct (uhandshake_path C CE SE chunk srv chost host csk rnd ssk L U Hsig A cs cx m 0 [] F1 ltac:(reflexivity) Hwf Hcl Hop Hci Hb Hctr)
      as (N1 & t1 & c1 & x1 & m1 & shared & P1 & G1 & C1 & L1).
    set (ses := {| cs_secret := shared; cs_id := uuid_of rnd |}) in *.
    set (F2 := fun X : cprog (list rd_result) => cbind X (fun rs => CRet (inr rs) : cprog A)).
    change (F1 (CRet (inr ses))) with (F2 (exchange C o ses n ps)) in P1.
    destruct (uexchange_path C CE SE chunk srv o chost A L (proj2 (u_client _ _ _ _ _ _ _ _ (U 0%nat))) (fun k => u_server _ _ _ _ _ _ _ _ (U k))
      (fun k => u_host _ _ _ _ _ _ _ _ (U k)) Ho ses n f ps [] c1 x1 m1 1%nat [] F2 ltac:(reflexivity) L1 ltac:(rewrite C1; lia) Hp Hf Hr)
      as (N2 & t2 & c2 & x2 & m2 & k2 & P2 & G2).
    change (F2 (CRet (expected o f ps))) with (CRet (inr (expected o f ps)) : cprog A) in P2.
    eexists. eexists. eexists. split; [eapply path_app; [exact P1|exact P2]|].
    split; [split; reflexivity|]. split; [apply Forall_app; auto|]. split; [reflexivity|]. cbn [w_calls app]. rewrite C1. reflexivity.
  Qed.
End Whole.
