(** A server that no longer knows the session of a client. *)
From Verif Require Import Bytes BytesProofs Parser Crypto Kdf Wire WireProofs WireSeq Replay SpecReplay Server ServerSeq SpecServer ServerProofs ServerProps ServerProps2 ServerProps3
  Keys Client ClientSeq SpecClient SpecE2E ClientProofs E2EProofs ClientConc Pool PoolProofs PoolInv.

Lemma any_error_run_last C E o ses n s code msg rest : c_works E -> c_buf s = [] ->
  response_ok (RsError code msg) -> c_in s = enc_response (RsError code msg) ++ rest ->
  exists s', crun C E (client_read C o ses n) s = (Some (RdErr (RdRemote code msg)), s') /\
    c_in s' = rest /\ c_buf s' = [] /\ c_ctr s' = c_ctr s /\ c_sent s' = c_sent s /\ c_last s' = c_last s.
Proof.
  intros W Hb Hok Hin. change (client_read C o ses n) with
    (cbind (if co_rto o then cdo CDeadline else CRet true) (read_after_deadline C ses n)).
  destruct (deadline_ok C E W (co_rto o) (read_after_deadline C ses n) s) as (s1 & -> & Hi & Hs & Hc1 & Hl & Hbf & Hse).
  unfold read_after_deadline. cbn [negb]. rewrite crun_do. cbn [cexec fst snd]. rewrite Hbf, Hb.
  change (0 <? lenN []) with false. cbv iota. rewrite crun_bind, crun_lift, Hi, Hin.
  set (m := new_error_response code msg).
  assert (Hm : error_resp_ok m) by (constructor; cbn; try apply Hok; reflexivity).
  cbn [enc_response]. fold m. unfold enc_error_resp. rewrite <- app_assoc, resp_common_rt by apply Hm.
  cbn [fst snd]. change (rs_success (er_common m)) with false. cbn [negb].
  rewrite crun_bind, crun_lift. cbn [c_in c_set_in]. rewrite <- !app_assoc, error_resp_rt_body by exact Hm.
  cbn [crun]. eexists. split; [reflexivity|]. cbn. repeat split; congruence.
Qed.
Lemma any_error_run C E o ses n s code msg rest : c_works E -> c_buf s = [] ->
  response_ok (RsError code msg) -> c_in s = enc_response (RsError code msg) ++ rest ->
  exists s', crun C E (client_read C o ses n) s = (Some (RdErr (RdRemote code msg)), s') /\
    c_in s' = rest /\ c_buf s' = [] /\ c_ctr s' = c_ctr s /\ c_sent s' = c_sent s.
Proof.
  intros W Hb Hok Hin. destruct (any_error_run_last C E o ses n s code msg rest W Hb Hok Hin) as (s' & H1 & H2 & H3 & H4 & H5 & _).
  exists s'. auto.
Qed.

Lemma unknown_run C E s host id msg rest ctr reply :
  request_ok (RqProcess id ctr msg reply) -> s_in s = enc_request (RqProcess id ctr msg reply) ++ rest ->
  e_quit E (s_step s) = false -> e_host E = Some host -> known C s host id = None ->
  let '(_, s') := srun C E (conn_body C) s in
  responded s s' (RsError 3 msg_unknown) /\ no_calls s s' /\ same_sessions C s s'.
Proof.
  intros Hok Hin Hq Hh Hk. rewrite (process_start C E s id msg rest ctr reply Hok Hin Hq).
  unfold process_after. cbn [sdo sbind srun sexec]. rewrite Hh. cbn [sdo sbind srun sexec]. unfold known in Hk.
  match goal with |- context [s_map ?x ?k] => change (s_map x k) with (s_map s (session_key C host id)) end.
  destruct (s_map s (session_key C host id)) as [p|] eqn:Ek; [discriminate|].
  destruct (reply_error_run C E code_unknown_client msg_unknown (set_in (tick s) rest)) as (n & ok & R & _ & _ & _).
  rewrite R. split; [apply responded_add; reflexivity|]. split; [reflexivity|]. intros h i. reflexivity.
Qed.

Section Lost.
  Variables (C : Crypto) (CE : cenv) (SE : senv) (o : copts) (chost : bytes).
  Hypothesis L : CryptoLaws C.
  Hypothesis WC : c_works CE.
  Hypothesis WS : writes_all SE.
  Hypothesis Q : forall i, e_quit SE i = false.
  Hypothesis Hh : e_host SE = Some chost.

  Lemma lost_round ses cs ss p n : length (cs_id ses) = 16%nat -> known C ss chost (cs_id ses) = None ->
    c_buf cs = [] -> c_ctr cs + 1 < 2 ^ 64 -> lenN p + 16 <= 2 ^ 30 ->
    let '(w, r, cs', ss') := round C CE SE o ses p n cs ss in
    r = Some (RdErr (RdRemote 3 msg_unknown)) /\ no_calls ss ss' /\ same_sessions C ss ss' /\
    c_buf cs' = [] /\ c_ctr cs' = c_ctr cs + 1.
  Proof.
    intros Hid Hk Hb Hc Hp. destruct (client_gcm_some C L (cs_secret ses)) as (key & K).
    unfold round. pose proof (write_ok_run C L CE o ses p cs key WC K) as W.
    destruct (crun C CE (client_write C o ses p) cs) as [w c1]. cbv zeta in W.
    rewrite N.mod_small in W by exact Hc. set (c := c_ctr cs + 1) in *.
    destruct W as (Wc & Wi & Wb & [(W0 & _)|(_ & Wl & _ & _ & Ws)]); [unfold c in W0; lia|].
    set (ct := gcm_seal C key (gcm_nonce dir_c2s c) p) in *.
    set (q := enc_request (RqProcess (cs_id ses) c ct (co_reply o))) in *.
    assert (Sq : sent_by_client cs c1 = q).
    { unfold sent_by_client. rewrite Ws, skipn_app_exact. unfold wire. cbn [map concat fst snd]. rewrite app_nil_r. apply takeN_all. }
    rewrite Sq.
    assert (Hok : request_ok (RqProcess (cs_id ses) c ct (co_reply o))).
    { split; [exact Hid|]. split; [exact Hc|]. unfold ct. rewrite (gcm_seal_len _ L). exact Hp. }
    pose proof (unknown_run C SE (set_in ss q) chost (cs_id ses) ct [] c (co_reply o) Hok) as U.
    specialize (U ltac:(cbn [set_in s_in]; rewrite app_nil_r; reflexivity) (Q _) Hh Hk).
    destruct (srun C SE (conn_body C) (set_in ss q)) as [res ss'] eqn:R. destruct U as (U1 & U2 & U3).
    rewrite (responded_wire C SE _ _ _ _ _ _ WS R U1).
    destruct (any_error_run C CE o ses n (c_set_in c1 (enc_response (RsError 3 msg_unknown))) 3 msg_unknown [] WC) as (c2 & -> & _ & B2 & C2 & _).
    - cbn [c_set_in c_buf]. congruence.
    - vm_compute. auto.
    - cbn [c_set_in c_in]. rewrite app_nil_r. reflexivity.
    - split; [reflexivity|]. split; [exact U2|]. split; [exact U3|]. split; [exact B2|]. rewrite C2. exact Wc.
  Qed.

  Lemma lost_rounds ses n : length (cs_id ses) = 16%nat -> forall ps cs ss, known C ss chost (cs_id ses) = None ->
    c_buf cs = [] -> c_ctr cs + lenN ps < 2 ^ 64 -> Forall (fun p => lenN p + 16 <= 2 ^ 30) ps ->
    let '(rs, cs', ss') := rounds C CE SE o ses n ps cs ss in
    rs = map (fun _ => Some (RdErr (RdRemote 3 msg_unknown))) ps /\ s_calls ss' = s_calls ss /\
    known C ss' chost (cs_id ses) = None.
  Proof.
    intros Hid. induction ps as [|p ps IH]; intros cs ss Hk Hb Hc Hp; cbn [rounds]; [auto|].
    rewrite lenN_cons in Hc. inversion Hp as [|? ? P1 P2]; subst.
    pose proof (lost_round ses cs ss p n Hid Hk Hb ltac:(lia) P1) as R.
    destruct (round C CE SE o ses p n cs ss) as [[[w r] c1] s1]. destruct R as (-> & R2 & R3 & R4 & R5).
    specialize (IH c1 s1). destruct (rounds C CE SE o ses n ps c1 s1) as [[rs c2] s2].
    destruct IH as (-> & I2 & I3); auto; try lia.
    - rewrite R3. exact Hk.
    - split; [reflexivity|]. split; [|exact I3]. unfold no_calls in R2. congruence.
  Qed.
End Lost.

Lemma pool_lost C (L : CryptoLaws C) CE SE o chost n mi mo st (sess : nat -> csession) ss :
  c_works CE -> writes_all SE -> (forall i, e_quit SE i = false) -> e_host SE = Some chost ->
  preachable mi mo st -> (forall k, ~ In (k, EPoolClosed) (p_trace st)) -> (forall x, length (cs_id (sess x)) = 16%nat) ->
  forall i c, In (i, EGot c) (p_trace st) -> known C ss chost (cs_id (sess (cl_session st c))) = None ->
  forall j d ps cs, In (j, EGot d) (p_trace st) -> c_buf cs = [] -> c_ctr cs + lenN ps < 2 ^ 64 ->
  Forall (fun p => lenN p + 16 <= 2 ^ 30) ps ->
  let '(rs, _, ss') := rounds C CE SE o (sess (cl_session st d)) n ps cs ss in
  (exists t, rs = map (fun _ => Some (RdErr (RdRemote 3 t))) ps) /\ s_calls ss' = s_calls ss.
Proof.
  intros WC WS Q Hh R NC Hid i c I Hk j d ps cs J Hb Hc Hp.
  rewrite (one_session mi mo st i j c d R NC I J) in Hk.
  pose proof (lost_rounds C CE SE o chost L WC WS Q Hh (sess (cl_session st d)) n (Hid _) ps cs ss Hk Hb Hc Hp) as X.
  destruct (rounds C CE SE o (sess (cl_session st d)) n ps cs ss) as [[rs cs'] ss']. destruct X as (-> & X & _). eauto.
Qed.

(** * A connection of a server that is being closed *)
Lemma serve_quit C E fuel s : e_quit E (s_step s) = true -> serve C E (S fuel) s = (Closed, tick s).
Proof. intros H. cbn [serve]. rewrite (conn_body_quit C E s H). reflexivity. Qed.
Lemma serve_quit_facts C E fuel s : e_quit E (s_step s) = true ->
  let '(f, s') := serve C E (S fuel) s in
  f = Closed /\ s_in s' = s_in s /\ s_sent s' = s_sent s /\ s_calls s' = s_calls s /\ same_sessions C s s'.
Proof. intros H. rewrite (serve_quit C E fuel s H). repeat split. Qed.
Lemma serve_last C E fuel s s1 : srun C E (conn_body C) s = (Some true, s1) -> e_quit E (s_step s1) = true ->
  serve C E (S (S fuel)) s = (Closed, tick s1).
Proof. intros R H. cbn [serve]. rewrite R, (conn_body_quit C E s1 H). reflexivity. Qed.
