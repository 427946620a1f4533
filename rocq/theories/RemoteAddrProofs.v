(** Lemmas for C180: the address a handler is given. *)
From Verif Require Import Bytes BytesProofs Parser ParserProofs Crypto Kdf Wire WireProofs WireSeq WireExtra Replay SpecReplay
  ReplayProofs Server ServerSeq SpecServer ServerProofs ServerProps ServerProps2 ServerProps3 MultiConn SpecMulti Keys KeysProofs
  Client ClientSeq SpecClient ClientProofs SpecE2E E2EProofs LostProofs Udp SpecUdp UdpProofs UdpThms UdpMore UdpTalk SpecUdpLoss UdpLoss SpecUdpDup UdpDup RemoteAddr.

(** ** Every call is told the source of the datagram *)
Section Told.
Variables (C : Crypto) (E : senv) (hostof : bytes -> option bytes) (chunk : nat -> N) (send : nat -> bytes -> bool).

Lemma take_keeps : forall fuel n x, u_read (fst x) = true ->
  let x' := snd (udp_take chunk fuel n x) in
  u_read (fst x') = true /\ u_addr (fst x') = u_addr (fst x) /\ u_buffered (fst x') = u_buffered (fst x).
Proof.
  induction fuel as [|fu IH]; intros n x Hr; cbn [udp_take]; [auto|]. destruct (n =? 0); [auto|].
  unfold udp_read1. rewrite Hr. destruct x as [u net]. cbn [fst] in *. destruct (buf_read _ _) as [b|]; [|cbn; auto].
  specialize (IH (n - lenN b) (u_set_rbuf u (dropN (N.min n (N.max 1 (chunk fu))) (u_rbuf u)), net) Hr).
  destruct (udp_take chunk fu _ _) as [[more e] x'']. cbn in *. exact IH.
Qed.
Lemma uexec_keeps {R} (e : seff R) x s : u_read (fst x) = true -> u_buffered (fst x) = true ->
  let '(_, (x', s')) := uexec C E hostof chunk send e x s in
  u_read (fst x') = true /\ u_buffered (fst x') = true /\ u_addr (fst x') = u_addr (fst x) /\
  exists l, s_calls s' = s_calls s ++ l /\ told_by e x = map (fun q => (u_addr (fst x), snd q)) l.
Proof.
  intros Hr Hb.
  assert (Nil : forall s' : sst, s_calls s' = s_calls s -> exists l, s_calls s' = s_calls s ++ l /\ @nil (bytes * bytes) = map (fun q => (u_addr (fst x), snd q)) l).
  { intros s' H. exists []. rewrite app_nil_r. auto. }
  destruct e; cbn [uexec sexec told_by]; try (cbn [fst snd]; auto).
  - unfold udp_readfull. pose proof (take_keeps (udp_fuel x) n x Hr) as K. destruct (udp_take chunk (udp_fuel x) n x) as [[got [[]|]] x']; cbn [fst snd] in *; destruct K as (K1 & K2 & K3); rewrite K1, K2, K3; auto.
  - unfold udp_copy. pose proof (take_keeps (udp_fuel x) n x Hr) as K. destruct (udp_take chunk (udp_fuel x) n x) as [[got [[]|]] x']; cbn [fst snd] in *; destruct K as (K1 & K2 & K3); rewrite K1, K2, K3; auto.
  - destruct x as [u net]. cbn [fst] in *. unfold udp_write. rewrite Hb. cbn [fst snd u_set_wbuf u_read u_addr u_buffered]. auto.
  - destruct (e_store E (s_step s)); cbn [fst snd]; auto.
  - destruct (check_and_update _ c); cbn [fst snd]; auto.
  - split; [auto|]. split; [auto|]. split; [auto|]. eexists. split; reflexivity.
Qed.
Lemma told_calls {A} (p : sprog A) : forall x s, u_read (fst x) = true -> u_buffered (fst x) = true ->
  let '(_, (_, s')) := urun C E hostof chunk send p x s in
  exists l, s_calls s' = s_calls s ++ l /\ told C E hostof chunk send p x s = map (fun q => (u_addr (fst x), snd q)) l.
Proof.
  induction p as [a| |R e k IH]; intros x s Hr Hb; cbn [urun told]; [exists []; rewrite app_nil_r; auto|exists []; rewrite app_nil_r; auto|].
  pose proof (uexec_keeps e x s Hr Hb) as K. destruct (uexec C E hostof chunk send e x s) as [r [x1 s1]].
  destruct K as (K1 & K2 & K3 & l1 & K4 & K5). specialize (IH r x1 s1 K1 K2). destruct (urun C E hostof chunk send (k r) x1 s1) as [a [x2 s2]].
  destruct IH as (l2 & I1 & I2). exists (l1 ++ l2). rewrite I1, K4, app_assoc. split; [reflexivity|]. rewrite K5, I2, K3, map_app. reflexivity.
Qed.
Lemma told_source n s a d q : n_closed n = false -> n_in n = (a, d) :: q ->
  let '(_, (_, s')) := udp_exchange C E hostof chunk send n s in
  exists l, s_calls s' = s_calls s ++ l /\ told_exchange C E hostof chunk send n s = map (fun q => (a, snd q)) l.
Proof.
  intros Hc Hi. unfold udp_exchange, told_exchange, udp_receive. rewrite Hc, Hi.
  match goal with |- context [told _ _ _ _ _ _ ?x s] => pose proof (told_calls (one_request C) x s eq_refl eq_refl) as H; destruct (urun C E hostof chunk send (one_request C) x s) as [r [x' s']] end.
  destruct (udp_close send x') as [ok [u2 n2]]. exact H.
Qed.
End Told.

(** ** A call is for a session of the host *)
Section Hosts.
Variables (C : Crypto) (E : senv).
Definition CP (ok : nat -> Prop) (p : sprog bool) : Prop := forall s, exists l,
  s_calls (snd (srun C E p s)) = s_calls s ++ l /\ Forall (fun q => ok (fst (fst (fst q)))) l.
Definition calls_none {R} (e : seff R) : bool := match e with SHandler _ _ _ _ => false | _ => true end.
Lemma sexec_same {R} (e : seff R) s : calls_none e = true -> s_calls (snd (sexec C E e s)) = s_calls s.
Proof.
  destruct e; cbn [sexec calls_none]; try reflexivity; try discriminate; intros _.
  - destruct (fl_read n (s_in s) (e_end E)); reflexivity.
  - destruct (fl_copy n (s_in s) (e_end E)); reflexivity.
  - destruct (e_write E (s_step s) b); reflexivity.
  - destruct (e_store E (s_step s)); reflexivity.
  - destruct (check_and_update _ c); reflexivity.
Qed.
Lemma CP_ret ok b : CP ok (SRet b). Proof. intro s. exists []. rewrite app_nil_r. auto. Qed.
Lemma CP_panic ok : CP ok SPanic. Proof. intro s. exists []. rewrite app_nil_r. auto. Qed.
Lemma CP_do {R} ok (e : seff R) k : calls_none e = true -> (forall r, CP ok (k r)) -> CP ok (SDo e k).
Proof.
  intros H Hk s. cbn [srun]. pose proof (sexec_same e s H) as Hs. destruct (sexec C E e s) as [r s1]. cbn [snd] in Hs.
  destruct (Hk r s1) as (l & H1 & H2). exists l. rewrite H1, Hs. auto.
Qed.
Lemma CP_handler (ok : nat -> Prop) p c reply m k : ok p -> (forall r, CP ok (k r)) -> CP ok (SDo (SHandler p c reply m) k).
Proof.
  intros Hp Hk s. cbn [srun sexec].
  match goal with |- context [srun C E (k ?r) ?s1] => destruct (Hk r s1) as (l & H1 & H2); exists ((p, c, reply, m) :: l); rewrite H1 end.
  cbn [s_calls add_call tick]. rewrite <- app_assoc. split; [reflexivity|]. constructor; auto.
Qed.
Lemma CP_lift {A} ok (p : parser A) f : (forall r, CP ok (f r)) -> CP ok (sbind (slift p) f).
Proof. intros H s. rewrite srun_bind, srun_lift. exact (H _ (set_in s _)). Qed.
Ltac cp := repeat match goal with
  | |- CP _ (SRet _) => apply CP_ret
  | |- CP _ SPanic => apply CP_panic
  | |- CP _ (sbind (sdo _) _) => cbn [sbind sdo]
  | |- CP _ (sbind _ _) => cbn [sbind sdo write_error_response]
  | |- CP _ (SDo (SHandler _ _ _ _) _) => apply CP_handler; [auto|intros ?]
  | |- CP _ (SDo _ _) => apply CP_do; [reflexivity|intros ?]
  | |- CP _ (reply_error _ _) => unfold reply_error
  | |- CP _ (write_error_response _) => unfold write_error_response
  | |- CP _ (write_response _) => unfold write_response
  | |- CP _ (match ?x with _ => _ end) => destruct x
  | |- CP _ (let _ := _ in _) => cbv zeta
  end.
Definition HP (p : sprog bool) : Prop := forall s, exists l, s_calls (snd (srun C E p s)) = s_calls s ++ l /\
  Forall (fun q => exists h id, e_host E = Some h /\ s_map s (session_key C h id) = Some (fst (fst (fst q)))) l.
Lemma HP_none p : (forall ok, CP ok p) -> HP p.
Proof. intros H s. destruct (H (fun _ => False) s) as (l & H1 & H2). exists l. split; [exact H1|]. eapply Forall_impl; [|exact H2]. intros q []. Qed.
Lemma HP_lift {A} (p : parser A) f : (forall r, HP (f r)) -> HP (sbind (slift p) f).
Proof. intros H s. rewrite srun_bind, srun_lift. exact (H _ (set_in s _)). Qed.
Lemma HP_process m : HP (process_after C m).
Proof.
  intros s. unfold process_after. cbn [sbind sdo srun sexec].
  assert (Er : forall c t, exists l, s_calls (snd (srun C E (reply_error c t) s)) = s_calls s ++ l /\ l = []).
  { intros c t. assert (G : CP (fun _ => False) (reply_error c t)) by cp. destruct (G s) as (l & H1 & H2). exists l. split; [exact H1|].
    destruct l as [|q l]; [reflexivity|]. inversion H2. contradiction. }
  destruct (e_host E) as [h|]; [|destruct (Er code_server_error msg_host) as (l & H1 & ->); exists []; auto].
  cbn [sbind sdo srun sexec]. destruct (s_map s (session_key C h (pr_id m))) as [p|] eqn:Em;
    [|destruct (Er code_unknown_client msg_unknown) as (l & H1 & ->); exists []; auto].
  match goal with |- context [srun C E ?q s] => assert (G : CP (eq p) q) by cp; destruct (G s) as (l & H1 & H2) end.
  exists l. split; [exact H1|]. eapply Forall_impl; [|exact H2]. intros q <-. eauto.
Qed.
Lemma call_of_host : HP (one_request C).
Proof.
  unfold one_request. apply HP_lift. intros [e|rc]; [apply HP_none; intro; cp|]. destruct (_ =? _); [|apply HP_none; intro; cp]. unfold handle.
  destruct (_ =? _); [apply HP_none; intro; cp|].
  destruct (_ =? _). { unfold setup_handler. apply HP_lift. intros [e|m]; apply HP_none; intro; [cp|]. unfold setup_after. cp. }
  destruct (_ =? _). { unfold process_handler. apply HP_lift. intros [e|m]; [apply HP_none; intro; cp|apply HP_process]. }
  destruct (_ =? _); [|apply HP_none; intro; cp]. apply HP_none; intro. unfold fetch_key_handler. cp.
Qed.
End Hosts.

Lemma told_host C E hostof chunk send n s a d q : n_closed n = false -> n_in n = (a, d) :: q ->
  let '(_, (_, s')) := udp_exchange C E hostof chunk send n s in
  exists l, s_calls s' = s_calls s ++ l /\ told_exchange C E hostof chunk send n s = map (fun q => (a, snd q)) l /\
  Forall (fun q => exists h id, hostof a = Some h /\ s_map s (session_key C h id) = Some (fst (fst (fst q)))) l.
Proof.
  intros Hc Hi. pose proof (told_source C E hostof chunk send n s a d q Hc Hi) as T.
  destruct (exchange_flat C E hostof chunk send n s a d q Hc Hi) as (r & s1 & l & ok & n' & s' & X & R & Hs1 & _). rewrite X in *.
  destruct T as (lc & T1 & T2). exists lc. split; [exact T1|]. split; [exact T2|].
  destruct (call_of_host C (dgram_env E (hostof a)) (set_in s d)) as (l' & H1 & H2). rewrite R in H1. cbn [snd] in H1.
  assert (Y : s_calls s1 = s_calls s') by (rewrite <- Hs1; reflexivity). rewrite Y, T1 in H1. change (s_calls (set_in s d)) with (s_calls s) in H1.
  apply app_inv_head in H1. subst l'. exact H2.
Qed.

(** ** A request sent on from another port *)
Lemma sent_to C E hostof chunk send n s a d b : n_closed n = false -> n_in n = [] ->
  forall r n' s', udp_exchange C E hostof chunk send (arrive a d n) s = (r, (n', s')) -> left_since n n' = [b] -> n_out n' = n_out n ++ [(Some a, b)].
Proof.
  intros Hc Hi r n' s' X Lb.
  destruct (exchange_flat C E hostof chunk send (arrive a d n) s a d [] Hc ltac:(cbn; rewrite Hi; reflexivity)) as (r2 & s1 & l & ok & n2 & s2 & X2 & _ & _ & _ & _ & _ & _ & H).
  rewrite X2 in X. injection X as <- <- <-. cbn [arrive n_out] in H. unfold left_since in Lb.
  destruct H as [(_ & H & _)|(_ & _ & H)]; rewrite H in Lb.
  - rewrite skipn_all in Lb. discriminate.
  - rewrite skipn_app, skipn_all, Nat.sub_diag in Lb. cbn [app skipn] in Lb. destruct ok; [|discriminate]. cbn in Lb. injection Lb as <-. exact H.
Qed.

Lemma read_one C CE chunk send o ses n srv u net s d r s1 : udp_client u -> u_read u = false -> n_closed net = false -> n_in net = [] -> d <> [] ->
  crun C (eof_env CE) (client_read C o ses n) (c_set_in s d) = (Some r, s1) -> c_in s1 = [] -> c_buf s1 = [] -> c_last s1 = c_last s -> c_ctr s1 = c_ctr s ->
  (forall i, ce_deadline CE i = true) ->
  fst (ucrun C CE chunk send (client_read C o ses n) (u, arrive srv d net) s) = Some r.
Proof.
  intros Hu Hr Hc Hi Hne R Ri Rb Rl Rc WC.
  destruct (read_head C CE chunk send srv o ses n WC 0 u (arrive srv d net) s d [] r s1 Hu Hr Hc ltac:(cbn; rewrite Hi; reflexivity) Hne R Ri Rb Rl Rc) as (rs & u' & net' & s' & H & _).
  cbn [udp_reads] in H. destruct (ucrun C CE chunk send (client_read C o ses n) (u, arrive srv d net) s) as [r0 [x1 s2]]. injection H as -> _ _. reflexivity.
Qed.

Lemma hijack C CE SE hostof chunk send me other srv o ses n chost f p hist cs u net sn ss : CryptoLaws C ->
  (forall i, ce_deadline CE i = true) -> (forall i b, lenN b <= 65507 -> send i b = true) ->
  hostof me = Some chost -> hostof other = Some chost -> co_reply o = true ->
  paired C ses chost hist cs ss -> Forall (fun c => c <= c_ctr cs) hist ->
  udp_client u -> n_closed net = false -> n_in net = [] -> n_closed sn = false -> n_in sn = [] ->
  c_ctr cs + 1 < two64 -> lenN p + 50 <= 65507 -> (forall i, e_handler SE i true p = HOk (f p)) ->
  f p <> [] /\ lenN (f p) + 33 <= 65507 /\ lenN (f p) <= n ->
  let '(_, ((u1, net1), c1)) := ucrun C CE chunk send (client_write C o ses p) (u, net) cs in
  exists q rep err, left_since net net1 = [q] /\
  told_exchange C SE hostof chunk send (arrive other q sn) ss = [(other, p)] /\
  let '(_, (sn1, s1)) := udp_exchange C SE hostof chunk send (arrive other q sn) ss in
  n_out sn1 = n_out sn ++ [(Some other, rep)] /\
  fst (ucrun C CE chunk send (client_read C o ses n) (u1, arrive srv rep net1) c1) = Some (RdOk (f p) true) /\
  told_exchange C SE hostof chunk send (arrive me q sn1) s1 = [] /\
  let '(_, (sn2, _)) := udp_exchange C SE hostof chunk send (arrive me q sn1) s1 in
  n_out sn2 = n_out sn1 ++ [(Some me, err)] /\
  fst (ucrun C CE chunk send (client_read C o ses n) (u1, arrive srv err net1) c1) = Some (RdErr (RdRemote 5 msg_replay)).
Proof.
  intros L WC Hsend Hme Hot Ho P Hle Hcl Hop Hin Hops Hins Hc Hp Hf (Hne & Hlo & Hln).
  destruct (client_gcm_some C L (cs_secret ses)) as (key & K). pose proof P as [Hwf Hid Hkn Hhist Hbuf].
  destruct (lossy_write C CE chunk send o ses L WC Hsend Ho p u net cs key Hcl Hop Hid K Hc Hp) as (w & u1 & net1 & c1 & -> & U1 & U2 & U3 & U4 & U5 & U6 & U7 & U8).
  rewrite Hin in U3. rewrite Hbuf in U8. set (c := c_ctr cs + 1) in *.
  set (ct := gcm_seal C key (gcm_nonce dir_c2s c) p) in *. set (q := enc_request (RqProcess (cs_id ses) c ct true)) in *.
  set (rc := gcm_seal C key (gcm_nonce dir_s2c c) (f p)).
  exists q, (enc_response (RsProcess c rc)), (enc_response (RsError 5 msg_replay)). split; [exact (left_since_one _ _ _ _ U5)|].
  destruct (lossy_serve C CE SE hostof chunk send other o ses chost f L WC Hsend Hot p hist cs ss sn key P Hle Hops Hins K Hc Hp Hf Hlo)
    as (r & sn1 & s1 & RS & S1 & S2 & S3 & S4 & S5 & S6).
  fold c ct q rc in RS, S3, S4, S6.
  assert (Hh' : Forall (fun c => c < two64) (hist ++ [c])) by (apply Forall_app; split; [exact Hhist|repeat constructor; exact Hc]).
  assert (Hct : lenN ct <= max_message_size) by (unfold ct; rewrite (gcm_seal_len _ L); unfold max_message_size; lia).
  assert (Hrf : refused_after (hist ++ [c]) c) by (apply once_refused; auto; apply next_not_refused, Hle).
  destruct (serve_again C CE SE hostof chunk send me o ses chost f WC Hsend Hme true (hist ++ [c]) s1 sn1 c ct (conj S5 S6) Hh' Hid Hc Hct Hrf S1 S2)
    as (r2 & sn2 & s2 & RS2 & B1 & B2 & B3 & B4 & _). fold q in RS2.
  pose proof (told_source C SE hostof chunk send (arrive other q sn) ss other q [] Hops ltac:(cbn; rewrite Hins; reflexivity)) as T1. rewrite RS in T1.
  pose proof (told_source C SE hostof chunk send (arrive me q sn1) s1 me q [] S1 ltac:(cbn; rewrite S2; reflexivity)) as T2. rewrite RS2 in T2.
  rewrite RS, RS2. destruct T1 as (l1 & T1 & ->). destruct T2 as (l2 & T2 & ->).
  split.
  { rewrite T1 in S4. unfold seen in S4. rewrite map_app in S4. apply app_inv_head in S4. destruct l1 as [|[[[p0 c0] r0] m0] [|? ?]]; try discriminate S4.
    cbn in S4. injection S4 as -> -> ->. reflexivity. }
  split; [exact (sent_to _ _ _ _ _ _ _ _ _ _ Hops Hins _ _ _ RS S3)|].
  split.
  { assert (Hpo : process_response_octets (enc_response (RsProcess c rc)) c rc).
    { exists x80. split; [reflexivity|]. split; [cbn; lia|]. split; [exact Hc|]. unfold rc. rewrite (gcm_seal_len _ L). unfold max_message_size. lia. }
    destruct (read_fresh_run C (eof_env CE) o ses n (c_set_in c1 (enc_response (RsProcess c rc))) (enc_response (RsProcess c rc)) [] c rc key (eof_works CE WC) U8)
      as (r' & c3 & Rr & Ri & (Rw1 & Rw2 & Rw3 & Rw4) & Rb); [symmetry; apply app_nil_r|exact Hpo|exact K|].
    cbn [c_set_in c_last] in Rb. rewrite U7, N.eqb_refl in Rb. unfold rc at 1 in Rb. rewrite (gcm_open_seal _ L) in Rb.
    assert (r' = RdOk (f p) true /\ c_buf c3 = []) as [-> Hb3].
    { destruct (f p) as [|y z]; [congruence|]. destruct Rb as [-> ->]. apply N.leb_le in Hln. unfold takeN, dropN. rewrite Hln. auto. }
    exact (read_one C CE chunk send o ses n srv u1 net1 c1 _ _ c3 U1 U2 U4 U3 (enc_response_ne _) Rr Ri Hb3 Rw3 Rw2 WC). }
  split.
  { rewrite B4 in T2. rewrite <- (app_nil_r (s_calls s1)) in T2 at 1. apply app_inv_head in T2. subst l2. reflexivity. }
  split; [exact (sent_to _ _ _ _ _ _ _ _ _ _ S1 S2 _ _ _ RS2 B3)|].
  destruct (any_error_run_last C (eof_env CE) o ses n (c_set_in c1 (enc_response (RsError 5 msg_replay))) 5 msg_replay [] (eof_works CE WC) U8 replay_error_ok)
    as (s3 & R & R1 & R2 & R3 & R4 & R5); [symmetry; apply app_nil_r|].
  apply (read_one C CE chunk send o ses n srv u1 net1 c1 _ _ s3 U1 U2 U4 U3 (enc_response_ne _) R); auto.
Qed.
