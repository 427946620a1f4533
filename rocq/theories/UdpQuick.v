(** Lemmas for C171: the quick start over UDP, among others. *)
From Verif Require Import Bytes BytesProofs Parser ParserProofs Crypto Kdf Wire WireProofs WireSeq WireExtra Replay SpecReplay
  ReplayProofs Server ServerSeq SpecServer ServerProofs ServerProps ServerProps2 ServerProps3 MultiConn SpecMulti Keys KeysProofs
  Client ClientSeq SpecClient ClientProofs SpecE2E E2EProofs System SpecSystem Kahn Duo DuoRun DuoTalk SystemSim
  Udp SpecUdp UdpProofs UdpThms UdpSystem SpecUdpSystem UdpDuo UdpTalk UdpSim SystemProofs UdpSysProofs Usage UsageProofs QuickStart.

Lemma nowrite_read_all C o ses size : forall k acc, nowrite (read_all C o ses size k acc).
Proof.
  induction k as [|k IH]; intros acc; [exact I|]. cbn [read_all]. apply nowrite_bind; [apply nowrite_read|].
  intros [d [|]|e]; [exact I|apply IH|exact I].
Qed.

(** * Any program whose duo comes to an end *)
Section Among.
  Variables (C : Crypto) (CE : cenv) (E : nat -> senv) (hostof : bytes -> option bytes) (chunk : nat -> N) (me srv : bytes)
    (waiting : list (bytes * bytes)) (m : mem) (key : bytes) (A : Type) (p : cprog A) (N : nat) (t : list (option bytes)) (z : uduo A).
  Notation SE := (fun k => dgram_env (E (2 * k)%nat) (hostof me)).
  Hypothesis Hw : Forall (fun q => fst q <> me) waiting.
  Hypothesis Hm : wf (join m (fresh_conn C false [])).
  Hypothesis P : path (uduo A) (option bytes) (ugo_c C CE chunk A) (ugo_s C SE srv A) (uuses A)
    {| w_cl := p; w_cx := new_socket; w_cs := blank; w_mode := UIdle m; w_k := 0; w_calls := [] |} N t z.
  Hypothesis Hz : ends _ (ugo_c C CE chunk A) (ugo_s C SE srv A) z.
  Hypothesis Hd : exists a, w_cl z = CRet a.
  Hypothesis G : Forall (good key) t.
  Notation moves := (uown_moves C CE E hostof chunk me srv).
  Notation rests := (urests C CE E hostof chunk me srv).

  Lemma uamong sched x : uspares C CE E hostof chunk me srv key sched (udialling C waiting m p) ->
    usys_run C CE E hostof chunk me srv sched (udialling C waiting m p) = Some x ->
    (moves sched (udialling C waiting m p) <= N)%nat /\ (rests x <-> moves sched (udialling C waiting m p) = N) /\
    (rests x -> v_cl x = w_cl z /\ ucalls x = w_calls z) /\
    (forall a, v_cl x = CRet a -> w_cl z = CRet a) /\ v_cl x <> CPanic.
  Proof.
    intros Hsp Hrun. destruct Hd as (b & Zc).
    assert (Hsane : sane m) by (destruct Hm as [W1 W2 _]; split; [exact W1|exact W2]).
    destruct (sim_udialling C CE hostof me key waiting m p Hsane Hw) as (f0 & N0 & S0).
    assert (Hcl : forall R e k, w_cl z <> @CDo _ R e k) by (rewrite Zc; discriminate).
    destruct (sim_usched C CE E hostof chunk me srv key _ sched _ _ _ _ _ _ _ _ S0 P Hz G Hcl Hsp Hrun)
      as (y & f1 & N1 & m1 & t1 & S1 & P1 & G1 & EN).
    pose proof (sim_urests C CE E hostof chunk me srv key _ _ _ _ _ _ _ _ S1 P1 Hz G1 Hcl) as SR.
    edestruct upath_done as [D1 D2]; [exact P1|].
    assert (ucalls x = w_seen _ y) as Hca by (eapply sim_ucalls; exact S1).
    assert (v_cl x = w_cl y) as Hxy by (eapply su_cl; exact S1).
    assert (Hws : w_seen _ z = w_calls z).
    { destruct Hz as [_ Z2]. unfold w_seen. unfold ugo_s in Z2.
      destruct (w_mode z) as [|?|m2 c2]; [apply app_nil_r|discriminate|destruct (c_prog c2); discriminate]. }
    split; [lia|]. split; [rewrite SR; lia|]. split.
    { intros H. apply SR in H. subst m1. inversion P1; subst. split; [exact Hxy|]. congruence. }
    rewrite Hxy. split; [exact D1|]. intros Ha. apply D2 in Ha. congruence.
  Qed.
End Among.

(** A schedule uses finitely many entries. *)
Lemma uspares_long C CE E hostof chunk me srv {A} sched : forall x : usys A, exists l, forall key, (l < length key)%nat ->
  uspares C CE E hostof chunk me srv key sched x.
Proof.
  induction sched as [|v sched IH]; intros x; [exists 0%nat; intros; exact I|].
  assert (H1 : exists l, forall key, (l < length key)%nat -> uspares1 key x v).
  { destruct v as [| |j|j|a d|k]; cbn [uspares1]; try (exists 0%nat; intros; exact I).
    - exists (match next_key (c_prog (t_conn (v_srv x) j)) with Some k => length k | None => 0%nat end).
      intros key Hk _ Hn. rewrite Hn in Hk. lia.
    - exists (length k). intros key Hk ->. lia. }
  destruct H1 as (l1 & H1). cbn [uspares]. destruct (usys_move C CE E hostof chunk me srv x v) as [y|].
  - destruct (IH y) as (l2 & H2). exists (max l1 l2). intros key Hk. split; [apply H1; lia|apply H2; lia].
  - exists l1. intros key Hk. split; [apply H1; lia|exact I].
Qed.

(** * The key *)
Section Fetch.
  Variables (C : Crypto) (CE : cenv) (SE : nat -> senv) (chunk : nat -> N) (srv : bytes) (alg : N) (pk : pubkey) (raw : bytes).
  Hypothesis WC : forall i, ce_deadline CE i = true.
  Hypothesis WS : forall k, writes_all (SE k).
  Hypothesis F : forall k i, e_fetch (SE k) i = KOk (alg, pk).
  Hypothesis M : pkix_marshal C pk = Some raw.
  Hypothesis PM : pkix_parse C raw = Some pk.
  Hypothesis Hl : lenN raw + 10 <= 65507.
  Hypothesis Ha : alg < 256.
  Notation A := (fk_error + pubkey)%type.
  Notation path := (path (uduo A) (option bytes) (ugo_c C CE chunk A) (ugo_s C SE srv A) (uuses A)).
  Notation q := (enc_request RqFetchKey).

  Lemma len_fetch_resp : lenN (enc_response (RsFetchKey alg raw)) = lenN raw + 10.
  Proof.
    cbn [enc_response]. unfold enc_fetch_resp, new_fetch_response, enc_resp_common. cbn [fk_common fk_alg fk_key rs_success].
    rewrite !lenN_app, !lenN_cons, !be_enc_lenN, lenN_nil. lia.
  Qed.

  Lemma ufetch_path cs cx m k ca :
    udp_client (fst cx) -> n_closed (snd cx) = false -> n_in (snd cx) = [] ->
    exists N t cs' cx' m',
      path {| w_cl := fetch_protocol C; w_cx := cx; w_cs := cs; w_mode := UIdle m; w_k := k; w_calls := ca |} N t
           {| w_cl := CRet (inr pk); w_cx := cx'; w_cs := cs'; w_mode := UIdle m'; w_k := S k; w_calls := ca |} /\
      Forall (fun l => l = None) t.
  Proof.
    intros Hcl Hop Hci.
    set (kk := fun w : N * bool => if snd w then CRet (inl FkSend) : cprog A
      else doc rc <- clift parse_resp_common;
           match rc with
           | inl e => CRet (inl (FkParse e))
           | inr rc =>
               if negb (rs_success rc) then
                 doc er <- clift (parse_error_resp rc);
                 match er with
                 | inl e => CRet (inl (FkParse e))
                 | inr er => CRet (inl (FkRefused (er_code er) (er_msg er)))
                 end
               else
                 doc r <- clift (parse_fetch_resp rc);
                 match r with
                 | inl e => CRet (inl (FkParse e))
                 | inr r => match pkix_parse C (fk_key r) with None => CRet (inl FkKey) | Some pk => CRet (inr pk) end
                 end
           end).
    assert (Head : fetch_protocol C = CDo (CWrite q) kk) by reflexivity.
    assert (Nw : nowrite (kk (lenN q, false))).
    { unfold kk. cbn [snd]. apply nowrite_bind; [apply nowrite_lift|]. intros [e|rc]; [exact I|]. destruct (negb (rs_success rc)).
      - apply nowrite_bind; [apply nowrite_lift|]. intros [e|er]; exact I.
      - apply nowrite_bind; [apply nowrite_lift|]. intros [e|r]; [exact I|]. destruct (pkix_parse C (fk_key r)); exact I. }
    set (c1 := c_add_sent (c_tick cs) q (lenN q)).
    assert (P1 : path {| w_cl := fetch_protocol C; w_cx := cx; w_cs := cs; w_mode := UIdle m; w_k := k; w_calls := ca |} 1 []
      {| w_cl := kk (lenN q, false); w_cx := wrote q cx; w_cs := c1; w_mode := UQueued m q; w_k := k; w_calls := ca |}).
    { rewrite Head. destruct cx as [u net]. cbn [fst snd] in *.
      apply (upath_write C CE SE chunk srv A (fun x => x) q kk u net cs m k ca ltac:(reflexivity) Hcl Hop Hci); reflexivity. }
    (* the server *)
    set (s0 := join m (fresh_conn C false q)).
    assert (Hin0 : s_in s0 = q ++ []) by reflexivity.
    assert (Hok : request_ok RqFetchKey) by exact I.
    set (E0 := shift (s_step s0) (SE k)).
    assert (Q0 : e_quit E0 (s_step s0) = false) by (cbn [E0 shift e_quit]; rewrite Nat.eqb_refl; reflexivity).
    assert (W0 : writes_all E0) by apply shift_writes, WS.
    assert (TT : touches C (SE k) (fun _ => False) (one_request C) s0).
    { apply (touch_request _ _ _ s0 RqFetchKey [] Hok Hin0). cbn [after].
      unfold fetch_key_handler, sdo. cbn [sbind touches]. split; [discriminate|]. cbn [sexec fst snd]. rewrite F, M. apply touch_response. }
    pose proof (conn_body_ok C E0 s0 RqFetchKey [] Hok Hin0 Q0) as R0.
    pose proof (one_request_conn C (SE k) s0) as RC. fold E0 in RC. rewrite RC in R0.
    destruct (srun C (SE k) (one_request C) s0) as [r s1] eqn:R. cbn [fst snd] in R0.
    cbn [after] in R0. unfold fetch_key_handler in R0. rewrite srun_bind in R0. cbn [sdo srun sexec] in R0.
    cbn [fst snd] in R0. change (e_fetch E0) with (fun i => e_fetch (SE k) (pred i)) in R0. cbv beta in R0. rewrite F, M in R0.
    match type of R0 with (_ = srun _ _ (write_response _) ?s0) =>
      destruct (write_response_run C E0 (RsFetchKey alg raw) s0) as (n & ok & Hn & Hn2 & [(X & Xok)|(X & _)]) end; [|contradiction].
    specialize (Xok W0). cbn [enc_response] in X. rewrite X in R0. subst ok.
    pose proof (f_equal fst R0) as Er. pose proof (f_equal snd R0) as Es. cbn [fst snd] in Er, Es. subst r.
    set (out := enc_response (RsFetchKey alg raw)) in *.
    assert (Hout : wire (s_sent s1) = out).
    { assert (s_sent s1 = [(out, n)]) as -> by (change (s_sent s1) with (s_sent (tick s1)); rewrite Es; reflexivity).
      rewrite Duo.wire_one, (Hn2 eq_refl). apply takeN_all. }
    assert (Hseen : seen (s_calls s1) = []).
    { assert (s_calls s1 = []) as -> by (change (s_calls s1) with (s_calls (tick s1)); rewrite Es; reflexivity). reflexivity. }
    destruct (upath_serve C CE SE chunk srv A (fun _ => False) m q (kk (lenN q, false)) (wrote q cx) c1 k ca _ _ R TT) as (N2 & t2 & P2 & G2).
    assert (Hofit : fits out = true) by (unfold fits; apply N.leb_le; unfold out; rewrite len_fetch_resp; exact Hl).
    assert (Hone : out <> []) by apply enc_response_ne.
    assert (Hdel : deliver srv out (wrote q cx) = (fst (wrote q cx), arrive srv out (snd (wrote q cx)))).
    { unfold deliver. rewrite Hofit. destruct out; [congruence|reflexivity]. }
    rewrite Hout, Hdel, Hseen, app_nil_r in P2.
    (* the answer *)
    assert (Hh1 : holds (fst (wrote q cx)) (arrive srv out (snd (wrote q cx))) out []).
    { right. cbn -[enc_request]. split; [reflexivity|]. split; [exact Hop|]. exists srv. rewrite Hci. reflexivity. }
    destruct (fetch_protocol_run C (eof_env CE) (c_set_in cs out) alg raw [] (eof_works CE WC)) as (c3 & R3 & I3 & _).
    { split; [exact Ha|]. unfold max_key_size in *. lia. }
    { cbn [c_set_in c_in]. rewrite app_nil_r. reflexivity. }
    rewrite PM in R3.
    assert (R3' : crun C (eof_env CE) (kk (lenN q, false)) (c_set_in c1 out) = (Some (inr pk), c3)).
    { etransitivity; [|exact R3]. rewrite Head. cbn [crun].
      assert (Ex3 : cexec C (eof_env CE) (CWrite q) (c_set_in cs out) = ((lenN q, false), c_set_in c1 out)).
      { cbn [cexec eof_env ce_write]. rewrite N.min_id. reflexivity. }
      rewrite Ex3. reflexivity. }
    destruct (upath_reads C CE SE chunk srv A (fun x => x) ltac:(reflexivity) _ Nw _ _ c1 out [] (mem_of s1) (S k) ca _ _ Hh1 R3')
      as (N3 & u' & net' & c4 & P3 & E3 & H3 & R4 & D3).
    pose proof (path_app _ _ _ _ _ _ _ _ _ _ _ _ P1 (path_app _ _ _ _ _ _ _ _ _ _ _ _ P2 P3)) as P.
    do 5 eexists. split; [exact P|]. cbn [app]. rewrite app_nil_r.
    eapply Forall_impl; [|exact G2]. intros [l|] H; [destruct (H l eq_refl)|reflexivity].
  Qed.
End Fetch.

(** * The messages *)
Section Run.
  Variables (C : Crypto) (CE : cenv) (SE : nat -> senv) (chunk : nat -> N) (srv : bytes) (o : copts) (chost : bytes) (A : Type).
  Hypothesis L : CryptoLaws C.
  Hypothesis WC : forall i, ce_deadline CE i = true.
  Hypothesis WS : forall k, writes_all (SE k).
  Hypothesis Hh : forall k, e_host (SE k) = Some chost.
  Hypothesis Ho : co_reply o = true.
  Variables (size : nat -> N) (n : nat) (f : bytes -> bytes).
  Hypothesis Hpos : forall i, 0 < size i.
  Notation path := (path (uduo A) (option bytes) (ugo_c C CE chunk A) (ugo_s C SE srv A) (uuses A)).
  Notation reads := (list (option (bytes * option rd_error))).
  Notation ulinked := (ulinked C chost).

  Lemma waits_read_all (F : cprog (option (bytes * option rd_error)) -> cprog A) ses s :
    (forall R (e : ceff R) k, F (CDo e k) = CDo e (fun r => F (k r))) -> n <> 0%nat ->
    c_buf s = [] -> waits C CE (F (read_all C o ses size n [])) s = true.
  Proof.
    intros HF Hn Hb. destruct n as [|k]; [congruence|]. cbn [read_all].
    set (G := fun r : rd_result => _).
    apply (waits_read C CE o A WC (fun X => F (cbind X G))); [|exact Hb]. intros. cbn [cbind]. apply HF.
  Qed.

  Lemma usay_path ses hist cs cx m p (F : cprog reads -> cprog A) ps k ca :
    (forall R (e : ceff R) k, F (CDo e k) = CDo e (fun r => F (k r))) ->
    ulinked ses hist cs cx m -> c_ctr cs + 1 < 2 ^ 64 -> lenN p + 50 <= 65507 ->
    (forall k i, e_handler (SE k) i true p = HOk (f p)) ->
    f p <> [] /\ lenN (f p) + 33 <= 65507 /\ (length (f p) <= n)%nat ->
    exists N t cs' cx' m',
      path {| w_cl := F (says C o ses size n (p :: ps)); w_cx := cx; w_cs := cs; w_mode := UIdle m; w_k := k; w_calls := ca |} N t
           {| w_cl := F (cbind (says C o ses size n ps) (fun rs => CRet (Some (f p, None) :: rs)));
              w_cx := cx'; w_cs := cs'; w_mode := UIdle m'; w_k := S k; w_calls := ca ++ [(c_ctr cs + 1, true, p)] |} /\
      Forall (fun l => forall key, l = Some key -> key = session_key C chost (cs_id ses)) t /\
      c_ctr cs' = c_ctr cs + 1 /\ ulinked ses (hist ++ [c_ctr cs + 1]) cs' cx' m'.
  Proof.
    intros HF [[Hwf Hid Hkn Hhist Hbuf] Hle Hcl Hop Hci] Hc Hp Hf (Hne & Hlo & Hln).
    assert (Hn0 : n <> 0%nat) by (intros ->; destruct (f p); [congruence|cbn in Hln; lia]).
    assert (Hnr : ~ refused_after hist (c_ctr cs + 1)) by (apply next_not_refused, Hle).
    set (c := c_ctr cs + 1) in *.
    destruct (client_gcm_some C L (cs_secret ses)) as (key & K).
    set (ct := gcm_seal C key (gcm_nonce dir_c2s c) p).
    set (q := enc_request (RqProcess (cs_id ses) c ct true)).
    assert (Hct : lenN ct = lenN p + 16) by (unfold ct; rewrite (gcm_seal_len _ L); lia).
    assert (Hfit : fits q = true).
    { unfold fits. apply N.leb_le. unfold q. rewrite len_process_req by exact Hid. lia. }
    set (Fw := fun X : cprog wr_result => F (cbind X (fun w => match w with
      | WrConn _ false =>
          doc r <- read_all C o ses size n [];
          doc rs <- says C o ses size n ps;
          CRet (r :: rs)
      | _ => CRet []
      end))).
    change (F (says C o ses size n (p :: ps))) with (Fw (client_write C o ses p)).
    assert (HFw : forall R (e : ceff R) k, Fw (CDo e k) = CDo e (fun r => Fw (k r))) by (intros; unfold Fw; cbn [cbind]; apply HF).
    set (Fr := fun X : cprog (option (bytes * option rd_error)) => F (cbind X (fun r => doc rs <- says C o ses size n ps; CRet (r :: rs)))).
    assert (HFr : forall R (e : ceff R) k, Fr (CDo e k) = CDo e (fun r => Fr (k r))) by (intros; unfold Fr; cbn [cbind]; apply HF).
    (* the client writes *)
    assert (P1 : exists N1 c1, path {| w_cl := Fw (client_write C o ses p); w_cx := cx; w_cs := cs; w_mode := UIdle m; w_k := k; w_calls := ca |} N1 []
        {| w_cl := Fr (read_all C o ses size n []); w_cx := wrote q cx; w_cs := c1; w_mode := UQueued m q; w_k := k; w_calls := ca |} /\
        c_ctr c1 = c /\ c_last c1 = c /\ c_buf c1 = []).
    { unfold client_write. set (G := fun ok : bool => _).
      assert (HG : forall s, c_ctr s = c_ctr cs -> c_buf s = [] -> exists N1 c1,
          path {| w_cl := Fw (G true); w_cx := cx; w_cs := s; w_mode := UIdle m; w_k := k; w_calls := ca |} N1 []
          {| w_cl := Fr (read_all C o ses size n []); w_cx := wrote q cx; w_cs := c1; w_mode := UQueued m q; w_k := k; w_calls := ca |} /\
          c_ctr c1 = c /\ c_last c1 = c /\ c_buf c1 = []).
      { intros s Hs Hbs. unfold G. cbn [negb]. rewrite K.
        eexists. eexists. split.
        - refine (path_app _ _ _ _ _ _ _ _ _ _ [] [] (upath_local C CE SE chunk srv A Fw CAdd _ cx s (UIdle m) k ca HFw eq_refl) _).
          cbn [cexec fst snd]. rewrite Hs. fold c. rewrite N.mod_small by exact Hc.
          replace (c =? 0) with false by (symmetry; apply N.eqb_neq; unfold c; lia).
          refine (path_app _ _ _ _ _ _ _ _ _ _ [] [] (upath_local C CE SE chunk srv A Fw (CSetLast c) _ cx _ (UIdle m) k ca HFw eq_refl) _).
          cbn [cexec fst snd].
          refine (path_app _ _ _ _ _ _ _ _ _ _ [] [] (upath_local C CE SE chunk srv A Fw (CSeal c key (gcm_nonce dir_c2s c) p) _ cx _ (UIdle m) k ca HFw eq_refl) _).
          cbn [cexec fst snd]. fold ct. destruct cx as [u net]. cbn [fst snd] in *. rewrite Ho.
          change (enc_process_req (new_process_request (cs_id ses) c ct true)) with q.
          pose proof (upath_write C CE SE chunk srv A Fw q (fun w => CRet (WrConn (fst w) (snd w))) u net
            (c_add_seal (c_set_last (c_set_ctr s c) c) (c, key, gcm_nonce dir_c2s c, p)) m k ca HFw Hcl Hop Hci Hfit) as PW.
          assert (EF : Fw (CRet (WrConn (lenN q) false)) = Fr (read_all C o ses size n [])).
          { reflexivity. }
          cbn [fst snd] in PW. rewrite EF in PW. apply PW. apply waits_read_all; [exact HFr|exact Hn0|exact Hbs].
        - cbn. auto. }
      destruct (co_wto o); cbn [cbind cdo].
      - destruct (HG (c_tick cs) eq_refl Hbuf) as (N1 & c1 & PG & HG').
        exists (1 + N1)%nat, c1. split; [|exact HG'].
        refine (path_app _ _ _ _ _ _ _ _ _ _ [] [] (upath_local C CE SE chunk srv A Fw CDeadline _ cx cs (UIdle m) k ca HFw eq_refl) _).
        cbn [cexec fst snd]. rewrite WC. exact PG.
      - apply HG; [reflexivity|exact Hbuf]. }
    destruct P1 as (N1 & c1 & P1 & C1 & L1 & B1).
    (* the server *)
    set (s0 := join m (fresh_conn C false q)).
    assert (Hin0 : s_in s0 = q ++ []) by (rewrite app_nil_r; reflexivity).
    assert (Hok : request_ok (RqProcess (cs_id ses) c ct true)).
    { split; [exact Hid|]. split; [exact Hc|]. unfold max_message_size. lia. }
    assert (Hwf0 : wf s0) by (apply (wf_same (join m (fresh_conn C false []))); auto).
    set (E0 := shift (s_step s0) (SE k)).
    assert (Q0 : e_quit E0 (s_step s0) = false) by (cbn [E0 shift e_quit]; rewrite Nat.eqb_refl; reflexivity).
    assert (W0 : writes_all E0) by apply shift_writes, WS.
    pose proof (process_accepted C E0 s0 chost (cs_id ses) ct [] c true Hok Hin0 Q0 (Hh k)) as PA.
    specialize (PA _ hist Hkn Hhist eq_refl Hwf0 Hnr key (eq_trans (eq_sym (client_server_gcm C _)) K) p (gcm_open_seal _ L _ _ _)).
    pose proof (WF_conn C E0 s0 Hwf0) as WF'.
    unfold E0 in PA, WF'. rewrite one_request_conn in PA, WF'. fold E0 in PA, WF'.
    destruct (srun C (SE k) (one_request C) s0) as [res s1] eqn:R. cbn [fst snd] in PA, WF'.
    destruct PA as ((ptr & Pc) & [Pk Pother] & Pin & i & Pr).
    change (e_handler E0 i true p) with (e_handler (SE k) (pred i) true p) in Pr. rewrite Hf in Pr. cbv zeta in Pr.
    destruct Pr as [_ Pr]. destruct (Pr W0) as [(kk & Prs) ->].
    set (rc := gcm_seal C key (gcm_nonce dir_s2c c) (f p)) in *.
    set (out := enc_response (RsProcess c rc)) in *.
    assert (Hkk : kk = lenN out).
    { destruct (srun_new_full C (SE k) (one_request C) s0 (WS k)) as (l & Hl & Fl). rewrite R in Hl. cbn [snd] in Hl.
      change (s_sent (tick s1)) with (s_sent s1) in Prs. rewrite Prs in Hl. apply app_inv_head in Hl. subst l.
      inversion Fl as [|? ? F1 _]. unfold full in F1. exact F1. }
    assert (Hout : wire (s_sent s1) = out).
    { change (s_sent (tick s1)) with (s_sent s1) in Prs. rewrite Prs. change (s_sent s0) with (@nil (bytes * N)). cbn [app].
      rewrite Duo.wire_one, Hkk. apply takeN_all. }
    assert (TT : touches C (SE k) (fun k => k = session_key C chost (cs_id ses)) (one_request C) s0).
    { apply (touch_request _ _ _ s0 (RqProcess (cs_id ses) c ct true) [] Hok Hin0).
      cbn [after]. apply (touch_process _ _ _ chost); [apply Hh|reflexivity]. }
    destruct (upath_serve C CE SE chunk srv A _ m q (Fr (read_all C o ses size n [])) (wrote q cx) c1 k ca _ _ R TT) as (N2 & t2 & P2 & G2).
    rewrite Hout in P2.
    assert (Hofit : fits out = true).
    { unfold fits. apply N.leb_le. unfold out. rewrite len_process_resp. unfold rc. rewrite (gcm_seal_len _ L). lia. }
    assert (Hone : out <> []) by apply enc_response_ne.
    assert (Hdel : deliver srv out (wrote q cx) = (fst (wrote q cx), arrive srv out (snd (wrote q cx)))).
    { unfold deliver. rewrite Hofit. destruct out; [congruence|reflexivity]. }
    rewrite Hdel in P2.
    assert (Hseen : seen (s_calls s1) = [(c, true, p)]).
    { change (s_calls (tick s1)) with (s_calls s1) in Pc. rewrite Pc. reflexivity. }
    rewrite Hseen in P2.
    (* the client reads *)
    assert (Hh1 : holds (fst (wrote q cx)) (arrive srv out (snd (wrote q cx))) out []).
    { right. cbn. split; [reflexivity|]. split; [exact Hop|]. exists srv. rewrite Hci. reflexivity. }
    destruct (read_all_fresh C L (eof_env CE) o ses size n (c_set_in c1 out) out [] key (f p) (eof_works CE WC)) as (c3 & Rr & Ri & Hb3 & (Rw1 & Rw2 & Rw3 & Rw4)).
    { exact B1. }
    { rewrite app_nil_r. reflexivity. }
    { exact K. }
    { exact Hne. }
    { change (c_last (c_set_in c1 out)) with (c_last c1). rewrite L1.
      exists x80. split; [reflexivity|]. split; [cbn; lia|]. split; [exact Hc|]. rewrite (gcm_seal_len _ L). unfold max_message_size. lia. }
    { exact Hpos. }
    { exact Hln. }
    destruct (upath_reads C CE SE chunk srv A Fr HFr (read_all C o ses size n []) (nowrite_read_all C o ses size n []) _ _ c1 out [] (mem_of s1) (S k)
      (ca ++ [(c, true, p)]) _ _ Hh1 Rr) as (N3 & u' & net' & c4 & P3 & E3 & H3 & R3 & D3).
    assert (Hnin : n_in net' = []).
    { rewrite Ri in H3, D3. destruct H3 as [(_ & _ & X)|(X & _ & _)]; [exact X|]. exfalso. apply Hone. symmetry. apply D3, X. }
    pose proof (path_app _ _ _ _ _ _ _ _ _ _ _ _ P1 (path_app _ _ _ _ _ _ _ _ _ _ _ _ P2 P3)) as P.
    do 5 eexists. split; [exact P|]. split; [cbn; rewrite app_nil_r; exact G2|].
    assert (Hc4 : c_ctr c4 = c).
    { rewrite E3 in Rw2. change (c_ctr c4 = c_ctr c1) in Rw2. congruence. }
    split; [exact Hc4|]. split; [split| | | |].
    - apply (wf_same (tick s1)); auto.
    - exact Hid.
    - exact Pk.
    - apply Forall_app. split; [exact Hhist|]. constructor; [exact Hc|constructor].
    - rewrite E3 in Hb3. exact Hb3.
    - rewrite Hc4. apply Forall_app. split; [|constructor; [lia|constructor]]. rewrite Forall_forall in *. intros x Hx. apply Hle in Hx. unfold c. lia.
    - cbn [fst]. apply R3. cbn. exact Hcl.
    - cbn [snd]. destruct R3 as (_ & -> & _). exact Hop.
    - exact Hnin.
  Qed.

  Lemma usays_path ses : forall ps hist cs cx m k ca (F : cprog reads -> cprog A),
    (forall R (e : ceff R) k, F (CDo e k) = CDo e (fun r => F (k r))) ->
    ulinked ses hist cs cx m -> c_ctr cs + lenN ps < 2 ^ 64 -> Forall (fun p => lenN p + 50 <= 65507) ps ->
    (forall k i p, In p ps -> e_handler (SE k) i true p = HOk (f p)) ->
    Forall (fun p => f p <> [] /\ lenN (f p) + 33 <= 65507 /\ (length (f p) <= n)%nat) ps ->
    exists N t cs' cx' m' k',
      path {| w_cl := F (says C o ses size n ps); w_cx := cx; w_cs := cs; w_mode := UIdle m; w_k := k; w_calls := ca |} N t
           {| w_cl := F (CRet (map (fun p => Some (f p, None)) ps)); w_cx := cx'; w_cs := cs'; w_mode := UIdle m'; w_k := k';
              w_calls := ca ++ numbered (c_ctr cs + 1) true ps |} /\
      Forall (fun l => forall key, l = Some key -> key = session_key C chost (cs_id ses)) t.
  Proof.
    induction ps as [|p ps IH]; intros hist cs cx m k ca F HF Hl Hc Hp Hf Hr.
    - exists 0%nat, [], cs, cx, m, k. split; [|constructor]. cbn [map numbered]. rewrite app_nil_r. apply path_nil.
    - rewrite lenN_cons in Hc. inversion Hp as [|? ? Hp1 Hp2]; subst. inversion Hr as [|? ? Hr1 Hr2]; subst.
      destruct (usay_path ses hist cs cx m p F ps k ca HF Hl ltac:(lia) Hp1 (fun k i => Hf k i p (or_introl eq_refl)) Hr1)
        as (N1 & t & c1 & x1 & m1 & P1 & G1 & C1 & L1).
      set (F2 := fun X : cprog reads => F (cbind X (fun rs => CRet (Some (f p, None) :: rs)))).
      assert (HF2 : forall R (e : ceff R) k, F2 (CDo e k) = CDo e (fun r => F2 (k r))) by (intros; unfold F2; cbn [cbind]; apply HF).
      destruct (IH _ c1 x1 m1 (S k) (ca ++ [(c_ctr cs + 1, true, p)]) F2 HF2 L1 ltac:(lia) Hp2 (fun k i p' Hi => Hf k i p' (or_intror Hi)) Hr2)
        as (N2 & t' & c2 & x2 & m2 & k2 & P2 & G2).
      exists (N1 + N2)%nat, (t ++ t'), c2, x2, m2, k2. split.
      + eapply path_app; [exact P1|]. cbn [numbered]. rewrite <- app_assoc, C1 in P2. exact P2.
      + apply Forall_app; auto.
  Qed.
End Run.

(** * Both *)
Lemma udp_quick_start C CE E hostof chunk srv ssk alg pk raw : CryptoLaws C ->
  fetch_key C ssk = KOk (alg, pk) -> pkix_marshal C pk = Some raw -> pkix_parse C raw = Some pk ->
  lenN raw + 10 <= 65507 -> alg < 256 -> (forall i, ce_deadline CE i = true) ->
  (forall me waiting m, Forall (fun q => fst q <> me) waiting -> wf (join m (fresh_conn C false [])) ->
     (forall k i, e_fetch (E (2 * k)%nat) i = fetch_key C ssk) ->
     let start := udialling C waiting m (fetch_protocol C) in
     let moves := uown_moves C CE E hostof chunk me srv in
     let rests := @urests C CE E hostof chunk me srv (fk_error + pubkey) in
     exists N, forall sched x, usys_run C CE E hostof chunk me srv sched start = Some x ->
       (moves sched start <= N)%nat /\ (rests x <-> moves sched start = N) /\
       (rests x -> v_cl x = CRet (inr pk) /\ ucalls x = []) /\
       (forall a, v_cl x = CRet a -> a = inr pk) /\ v_cl x <> CPanic) /\
  (forall me waiting m chost host csk rnd o size n f ps, Forall (fun q => fst q <> me) waiting -> wf (join m (fresh_conn C false [])) ->
     (forall k, undisturbed C (knowing CE pk) (dgram_env (E (2 * k)%nat) (hostof me)) chost host csk rnd ssk) ->
     (forall k i d sig, e_sign (E (2 * k)%nat) i SHA512 d = KOk sig -> lenN sig + 54 <= 65507) ->
     co_reply o = true -> (forall i, 0 < size i) ->
     lenN ps < 2 ^ 64 -> Forall (fun p => lenN p + 50 <= 65507) ps ->
     (forall k i p, In p ps -> e_handler (E (2 * k)%nat) i true p = HOk (f p)) ->
     Forall (fun p => f p <> [] /\ lenN (f p) + 33 <= 65507 /\ (length (f p) <= n)%nat) ps ->
     let key := session_key C chost (uuid_of rnd) in
     let start := udialling C waiting m (quick C o host size n ps) in
     let moves := uown_moves C (knowing CE pk) E hostof chunk me srv in
     let rests := @urests C (knowing CE pk) E hostof chunk me srv (hs_error + list (option (bytes * option rd_error))) in
     exists N, forall sched x, uspares C (knowing CE pk) E hostof chunk me srv key sched start ->
       usys_run C (knowing CE pk) E hostof chunk me srv sched start = Some x ->
       (moves sched start <= N)%nat /\ (rests x <-> moves sched start = N) /\
       (rests x -> v_cl x = CRet (inr (map (fun p => Some (f p, None)) ps)) /\ ucalls x = numbered 1 true ps) /\
       (forall a, v_cl x = CRet a -> a = inr (map (fun p => Some (f p, None)) ps)) /\ v_cl x <> CPanic).
Proof.
  intros L Fk M PM Hl Ha WC. split.
  - intros me waiting m Hw Hm F. cbv zeta.
    assert (WS : forall k, writes_all (dgram_env (E (2 * k)%nat) (hostof me))) by (intros k i b; cbn; split; [lia|reflexivity]).
    destruct (ufetch_path C CE (fun k => dgram_env (E (2 * k)%nat) (hostof me)) chunk srv alg pk raw WC WS (fun k i => eq_trans (F k i) Fk) M PM Hl Ha
      blank new_socket m 0 []) as (N & t & cs & cx & m' & P & G); try reflexivity.
    { repeat split. }
    exists N. intros sched x Hrun.
    destruct (uspares_long C CE E hostof chunk me srv sched (udialling C waiting m (fetch_protocol C))) as (l & Hsp).
    set (key := repeat x00 (S l)). specialize (Hsp key ltac:(unfold key; rewrite repeat_length; lia)).
    assert (G' : Forall (good key) t).
    { eapply Forall_impl; [|exact G]. intros ? ->. intros k Hk. discriminate Hk. }
    destruct (uamong C CE E hostof chunk me srv waiting m key _ _ N t _ Hw Hm P (conj eq_refl eq_refl) (ex_intro _ _ eq_refl) G' sched x Hsp Hrun)
      as (B & R & D & V & NP).
    split; [exact B|]. split; [exact R|]. split; [exact D|]. split; [|exact NP].
    intros a Hc. specialize (V a Hc). cbn [w_cl] in V. injection V as V. symmetry; exact V.
  - intros me waiting m chost host csk rnd o size n f ps Hw Hm U Hsig Ho Hs Hlen Hp Hf Hr. cbv zeta.
    set (F1 := fun X : cprog (hs_error + csession) => cbind X (fun h => match h with
      | inl e => CRet (inl e)
      | inr ses => doc rs <- says C o ses size n ps; CRet (inr rs) : cprog (hs_error + list (option (bytes * option rd_error)))
      end)).
    destruct (uhandshake_path C (knowing CE pk) (fun k => dgram_env (E (2 * k)%nat) (hostof me)) chunk srv chost host csk rnd ssk L U Hsig _
      blank new_socket m 0 [] F1 ltac:(reflexivity) Hm) as (N1 & t1 & c1 & x1 & m1 & shared & P1 & G1 & C1 & L1); try reflexivity.
    { repeat split. }
    set (ses := {| cs_secret := shared; cs_id := uuid_of rnd |}) in *.
    set (F2 := fun X : cprog (list (option (bytes * option rd_error))) => cbind X (fun rs =>
      CRet (inr rs) : cprog (hs_error + list (option (bytes * option rd_error))))).
    change (F1 (CRet (inr ses))) with (F2 (says C o ses size n ps)) in P1.
    destruct (usays_path C (knowing CE pk) (fun k => dgram_env (E (2 * k)%nat) (hostof me)) chunk srv o chost _ L WC
      (fun k => u_server _ _ _ _ _ _ _ _ (U k)) (fun k => u_host _ _ _ _ _ _ _ _ (U k)) Ho size n f Hs ses ps [] c1 x1 m1 1%nat [] F2
      ltac:(reflexivity) L1 ltac:(rewrite C1; lia) Hp Hf Hr) as (N2 & t2 & c2 & x2 & m2 & k2 & P2 & G2).
    pose proof (path_app _ _ _ _ _ _ _ _ _ _ _ _ P1 P2) as P.
    exists (N1 + N2)%nat. intros sched x Hsp Hrun.
    assert (G : Forall (good (session_key C chost (uuid_of rnd))) (t1 ++ t2)) by (apply Forall_app; split; [exact G1|exact G2]).
    destruct (uamong C (knowing CE pk) E hostof chunk me srv waiting m _ _ _ _ _ _ Hw Hm P (conj eq_refl eq_refl) (ex_intro _ _ eq_refl) G sched x Hsp Hrun)
      as (B & R & D & V & NP).
    cbn [w_calls w_cl app] in D. rewrite C1 in D.
    split; [exact B|]. split; [exact R|]. split; [exact D|]. split; [|exact NP].
    intros a Hc. specialize (V a Hc). cbn [w_cl F2 cbind] in V. injection V as V. symmetry; exact V.
Qed.
