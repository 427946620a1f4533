From Verif Require Import Bytes BytesProofs Parser ParserProofs Crypto Kdf Wire WireProofs WireSeq WireExtra Replay SpecReplay
  ReplayProofs Server ServerSeq SpecServer ServerProofs ServerProps ServerProps2 ServerProps3 Keys KeysProofs Client ClientSeq
  SpecClient ClientProofs SpecE2E.

Definition full (x : bytes * N) : Prop := snd x = lenN (fst x).
Lemma sexec_full C E {R} (e : seff R) s : writes_all E -> Forall full (s_sent s) -> Forall full (s_sent (snd (sexec C E e s))).
Proof.
  intros W F. destruct e; cbn [sexec]; try exact F.
  - destruct (fl_read _ _ _); exact F.
  - destruct (fl_copy _ _ _); exact F.
  - pose proof (W (s_step s) b) as [W1 _]. destruct (e_write E (s_step s) b) as [n er]. cbn in *.
    apply Forall_app. split; [exact F|]. constructor; [|constructor]. unfold full; cbn. lia.
  - destruct (e_store _ _); exact F.
  - destruct (check_and_update _ _); exact F.
Qed.
Lemma srun_full C E {A} (p : sprog A) : forall s, writes_all E -> Forall full (s_sent s) -> Forall full (s_sent (snd (srun C E p s))).
Proof.
  induction p as [a| |R e k IH]; intros s W F; cbn [srun]; [exact F..|].
  pose proof (sexec_full C E e s W F) as X. destruct (sexec C E e s) as [r s']. apply IH; assumption.
Qed.
(** The octets of earlier exchanges do not matter. *)
Definition forget (s : sst) (l : list (bytes * N)) : sst :=
  {| s_in := s_in s; s_step := s_step s; s_sent := l ++ s_sent s; s_map := s_map s;
     s_heap := s_heap s; s_next := s_next s; s_calls := s_calls s |}.
Lemma sexec_forget C E {R} (e : seff R) s l :
  sexec C E e (forget s l) = (fst (sexec C E e s), forget (snd (sexec C E e s)) l).
Proof.
  destruct e; cbn [sexec]; try reflexivity.
  - change (s_in (forget s l)) with (s_in s). destruct (fl_read _ _ _); reflexivity.
  - change (s_in (forget s l)) with (s_in s). destruct (fl_copy _ _ _); reflexivity.
  - change (s_step (forget s l)) with (s_step s). destruct (e_write _ _ _). cbn. unfold add_sent, forget, tick. cbn. rewrite app_assoc. reflexivity.
  - change (s_step (forget s l)) with (s_step s). destruct (e_store _ _); reflexivity.
  - change (s_heap (forget s l)) with (s_heap s). destruct (check_and_update _ _); reflexivity.
Qed.
Lemma srun_forget C E {A} (p : sprog A) : forall s l,
  srun C E p (forget s l) = (fst (srun C E p s), forget (snd (srun C E p s)) l).
Proof.
  induction p as [a| |R e k IH]; intros s l; cbn [srun]; [reflexivity..|].
  rewrite sexec_forget. destruct (sexec C E e s) as [r s']. cbn [fst snd]. apply IH.
Qed.
Definition fresh_sent (s : sst) : sst :=
  {| s_in := s_in s; s_step := s_step s; s_sent := []; s_map := s_map s;
     s_heap := s_heap s; s_next := s_next s; s_calls := s_calls s |}.
Lemma srun_new_full C E {A} (p : sprog A) s : writes_all E ->
  exists l, s_sent (snd (srun C E p s)) = s_sent s ++ l /\ Forall full l.
Proof.
  intros W. assert (H : s = forget (fresh_sent s) (s_sent s)) by (destruct s; unfold forget, fresh_sent; cbn; rewrite app_nil_r; reflexivity).
  replace (srun C E p s) with (srun C E p (forget (fresh_sent s) (s_sent s))) by (rewrite <- H; reflexivity). rewrite srun_forget. cbn [snd forget s_sent]. eexists. split; [reflexivity|].
  apply srun_full; [exact W|constructor].
Qed.
Lemma skipn_app_exact {A} (a b : list A) : skipn (length a) (a ++ b) = b.
Proof. induction a; cbn; auto. Qed.

Lemma responded_wire C E {A} (p : sprog A) s i s' r x : writes_all E -> srun C E p (set_in s i) = (x, s') ->
  responded (set_in s i) s' r -> sent_by_server s s' = enc_response r.
Proof.
  intros W R (n & H). destruct (srun_new_full C E p (set_in s i) W) as (l & Hl & F). rewrite R in Hl. cbn [snd] in Hl.
  rewrite H in Hl. apply app_inv_head in Hl. subst l. inversion F as [|? ? F1 _]. unfold full in F1. cbn in F1. subst n.
  unfold sent_by_server. rewrite H. cbn [set_in s_sent]. rewrite skipn_app_exact. cbn [wire map concat fst snd].
  unfold wire. cbn [map concat fst snd]. rewrite app_nil_r. apply takeN_all.
Qed.

Lemma uuid_length r : length r = 16%nat -> length (uuid_of r) = 16%nat.
Proof.
  intros H. do 17 (destruct r as [|? r]; [discriminate H || reflexivity|]). discriminate H.
Qed.

(** ** The client's side of a good handshake *)
Lemma handshake_ok C E host s pk rnd sk spub sig rest secret h hs :
  c_works E -> ce_fetch E host = Some pk -> ce_rand E = Some rnd -> ce_gen E = Some sk ->
  response_ok (RsSetup spub h sig) -> c_in s = enc_response (RsSetup spub h sig) ++ rest ->
  crypto_hash h = Some hs -> verify_signature C pk hs (hs_transcript C sk spub rnd) sig = VOk true ->
  x_dh C sk spub = Some secret ->
  exists s', crun C E (handshake C (Some host)) s = (Some (inr {| cs_secret := secret; cs_id := uuid_of rnd |}), s') /\
    c_in s' = rest /\ (let q := enc_request (RqSetup (uuid_of rnd) (x_pub C sk)) in c_sent s' = c_sent s ++ [(q, lenN q)]) /\
    c_buf s' = c_buf s /\ c_ctr s' = c_ctr s /\ c_last s' = c_last s.
Proof.
  intros W Ef Er Eg Hok Hin Hh Hv Hd. unfold handshake.
  rewrite crun_do. cbn [cexec fst snd]. rewrite Ef. rewrite crun_do. cbn [cexec fst snd]. rewrite Er. cbv zeta.
  rewrite crun_do. cbn [cexec fst snd]. rewrite Eg.
  set (q := enc_setup_req (new_setup_request (uuid_of rnd) (x_pub C sk))).
  rewrite crun_do. cbn [cexec]. pose proof (proj1 W (c_step s) q) as [W1 W2].
  destruct (ce_write E (c_step s) q) as [n er]. cbn [fst snd] in W1, W2. subst er. cbv zeta. cbn [fst snd].
  rewrite N.min_r by exact W1. rewrite N.eqb_refl. cbn [negb].
  set (s1 := c_add_sent (c_tick s) q (lenN q)).
  rewrite crun_bind, crun_lift. change (c_in s1) with (c_in s). rewrite Hin.
  pose proof (read_response_rt C action_setup (RsSetup spub h sig) rest (ce_end E) Hok eq_refl) as RT.
  unfold read_response in RT. rewrite run_bind in RT.
  destruct (run parse_resp_common _ _) as [[e|rc] i1] eqn:E1; [discriminate|]. cbn [fst snd].
  destruct (rs_success rc); cbn [negb] in RT |- *.
  2:{ rewrite run_bind in RT. destruct (run _ i1 _) as [[e|er] i2]; discriminate. }
  change (action_setup =? action_hello) with false in RT. change (action_setup =? action_setup) with true in RT.
  cbv iota in RT. rewrite run_bind in RT. rewrite crun_bind, crun_lift. cbn [c_in c_set_in].
  destruct (run (parse_setup_resp C rc) i1 (ce_end E)) as [[e|ss] i2] eqn:E2; [discriminate|]. cbn [fst snd run] in RT |- *.
  assert (ss_pub ss = spub /\ ss_hash ss = h /\ ss_sig ss = sig /\ i2 = rest) as (-> & -> & -> & ->)
    by (repeat split; congruence). clear RT.
  rewrite Hh. unfold hs_transcript in Hv. rewrite Hv, Hd. eexists. split; [reflexivity|]. repeat split.
Qed.

Section Together.
  Variables (C : Crypto) (CE : cenv) (SE : senv) (chost host csk rnd : bytes) (ssk : privkey).
  Hypothesis L : CryptoLaws C.
  Hypothesis U : undisturbed C CE SE chost host csk rnd ssk.

  Lemma e2e_handshake cs ss : wf ss ->
    let q := enc_request (RqSetup (uuid_of rnd) (x_pub C csk)) in
    let '(r, ss') := srun C SE (conn_body C) (set_in ss q) in
    let '(h, cs') := crun C CE (handshake C (Some host)) (c_set_in cs (sent_by_server ss ss')) in
    sent_by_client cs cs' = q /\ c_in cs' = [] /\ c_buf cs' = c_buf cs /\ c_ctr cs' = c_ctr cs /\ r = Some true /\ wf ss' /\
    exists ses, h = Some (inr ses) /\ length (cs_id ses) = 16%nat /\
      known C ss' chost (cs_id ses) = Some {| ses_secret := cs_secret ses; ses_win := new_window |}.
  Proof.
    intros Hwf. cbv zeta. set (id := uuid_of rnd). set (q := enc_request (RqSetup id (x_pub C csk))).
    destruct (u_rand _ _ _ _ _ _ _ _ U) as [Hr Hrl].
    assert (Hid : length id = 16%nat) by (apply uuid_length, Hrl).
    assert (Hok : request_ok (RqSetup id (x_pub C csk))) by (split; [exact Hid|apply (x_pub_len _ L)]).
    assert (Hwf' : wf (set_in ss q)) by (apply (wf_same ss); auto).
    pose proof (setup_spec C SE (set_in ss q) id (x_pub C csk) [] L Hok) as SP.
    specialize (SP ltac:(unfold q; cbn [set_in s_in]; rewrite app_nil_r; reflexivity) (u_quit _ _ _ _ _ _ _ _ U _) Hwf').
    pose proof (WF_conn C SE (set_in ss q) Hwf') as WF'.
    destruct (srun C SE (conn_body C) (set_in ss q)) as [r ss'] eqn:R. cbn [snd] in WF'.
    destruct SP as (_ & _ & [(h & i & sk & shared & j & sig & Eh & Eg & Ed & Es & [Kn _] & _ & Rs)|
      [(_ & (c & t & _ & Hreason) & _)|(h & i & sk & shared & j & Eh & Eg & Ed & _ & Hs)]]).
    - rewrite (u_host _ _ _ _ _ _ _ _ U) in Eh. injection Eh as <-.
      destruct (Rs (u_server _ _ _ _ _ _ _ _ U)) as [Rsp ->].
      destruct (u_sign _ _ _ _ _ _ _ _ U j (be_enc 4 44 ++ pkix_x25519 (x_pub C csk) ++ be_enc 4 44 ++
        pkix_x25519 (x_pub C sk) ++ id)) as (srnd & sig' & Es' & Esg & Hne & Hl).
      rewrite Es in Es'. injection Es' as <-. destruct (u_fetch _ _ _ _ _ _ _ _ U) as (alg & pk & Fk & Fc).
      assert (Tr : be_enc 4 44 ++ pkix_x25519 (x_pub C csk) ++ be_enc 4 44 ++ pkix_x25519 (x_pub C sk) ++ id =
                   setup_transcript (x_pub C csk) (x_pub C sk) id).
      { unfold setup_transcript, pkix_x25519. cbv zeta. unfold lenN. rewrite !app_length, !(x_pub_len _ L). reflexivity. }
      rewrite Tr in Esg. pose proof (sign_verify C L _ _ _ _ _ _ _ Esg Fk) as V.
      rewrite (responded_wire C SE _ _ _ _ _ _ (u_server _ _ _ _ _ _ _ _ U) R Rsp).
      rewrite (x_dh_comm _ L) in Ed.
      destruct (handshake_ok C CE host (c_set_in cs (enc_response (RsSetup (x_pub C sk) 4 sig))) pk rnd csk (x_pub C sk) sig []
        shared 4 SHA512 (u_client _ _ _ _ _ _ _ _ U) Fc Hr (u_gen _ _ _ _ _ _ _ _ U)) as (cs' & Hc & Hi & Hst & Hb & Hct & _); auto.
      { repeat split; auto. apply (x_pub_len _ L). }
      { cbn [c_in c_set_in]. rewrite app_nil_r. reflexivity. }
      rewrite Hc. split.
      { unfold sent_by_client. cbv zeta in Hst. rewrite Hst. cbn [c_set_in c_sent]. rewrite skipn_app_exact.
        unfold wire. cbn [map concat fst snd]. rewrite app_nil_r. apply takeN_all. }
      split; [exact Hi|]. split; [exact Hb|]. split; [exact Hct|]. split; [reflexivity|]. split; [exact WF'|].
      eexists. split; [reflexivity|]. split; [exact Hid|]. exact Kn.
    - exfalso. destruct Hreason as [[-> [[i Hg]|(i & sk & Hg & Hd)]]|[-> [Hh|[i Hs]]]].
      + destruct (u_sgen _ _ _ _ _ _ _ _ U i) as (k & Hk & _). congruence.
      + destruct (u_sgen _ _ _ _ _ _ _ _ U i) as (k & Hk & Hd'). congruence.
      + rewrite (u_host _ _ _ _ _ _ _ _ U) in Hh. discriminate.
      + rewrite (u_store _ _ _ _ _ _ _ _ U) in Hs. discriminate.
    - exfalso. cbv zeta in Hs. set (tr := be_enc 4 44 ++ _) in Hs.
      destruct (u_sign _ _ _ _ _ _ _ _ U j tr) as (? & ? & Hs' & _).
      destruct Hs as [[Hs _]|[Hs _]]; congruence.
  Qed.
End Together.

Lemma accepted_in hist : forall rs c, In c (accepted hist rs) -> In c hist.
Proof.
  induction hist as [|x hist IH]; intros [|r rs] c; cbn; try tauto.
  rewrite in_app_iff. intros [H|H]; [destruct r; [destruct H as [->|[]]; auto|contradiction]|right; eauto].
Qed.
Lemma highest_le l b : Forall (fun c => c <= b) l -> highest l <= b.
Proof. induction 1 as [|x l H _ IH]; cbn -[N.max]; [apply N.le_0_l|apply N.max_lub; assumption]. Qed.
Lemma next_not_refused hist c : Forall (fun x => x <= c) hist -> ~ refused_after hist (c + 1).
Proof.
  intros F R. unfold refused_after in R. cbv zeta in R. destruct R as [H|[H|H]]; [lia| |].
  - apply accepted_in in H. rewrite Forall_forall in F. apply F in H. lia.
  - assert (highest (accepted hist (fst (checks new_window hist))) <= c); [|lia].
    apply highest_le. rewrite Forall_forall in *. intros x Hx. apply F. eapply accepted_in, Hx.
Qed.

Section Round.
  Variables (C : Crypto) (CE : cenv) (SE : senv) (o : copts) (chost : bytes).
  Hypothesis L : CryptoLaws C.
  Hypothesis WC : c_works CE.
  Hypothesis WS : writes_all SE.
  Hypothesis Q : forall i, e_quit SE i = false.
  Hypothesis Hh : e_host SE = Some chost.
  Hypothesis Ho : co_reply o = true.

  Lemma e2e_round ses hist cs ss p n : paired C ses chost hist cs ss -> c_ctr cs + 1 < 2 ^ 64 ->
    ~ refused_after hist (c_ctr cs + 1) -> lenN p + 16 <= 2 ^ 30 ->
    (forall i, exists out, e_handler SE i true p = HOk out /\ out <> [] /\ lenN out + 16 <= 2 ^ 30) ->
    let c := c_ctr cs + 1 in
    let '(w, r, cs', ss') := round C CE SE o ses p n cs ss in
    w = Some (WrConn (lenN p + 50) false) /\
    (exists ptr, s_calls ss' = s_calls ss ++ [(ptr, c, true, p)]) /\
    (exists i out, e_handler SE i true p = HOk out /\ r = Some (RdOk (takeN n out) (lenN out <=? n)) /\ c_buf cs' = dropN n out) /\
    c_ctr cs' = c /\ c_in cs' = [] /\ wf ss' /\
    known C ss' chost (cs_id ses) = Some {| ses_secret := cs_secret ses; ses_win := snd (checks new_window (hist ++ [c])) |} /\
    forall h i, session_key C h i <> session_key C chost (cs_id ses) -> known C ss' h i = known C ss h i.
  Proof.
    intros [Hwf Hid Hkn Hhist Hbuf] Hc Hnr Hp HH. cbv zeta.
    destruct (client_gcm_some C L (cs_secret ses)) as (key & K).
    unfold round. pose proof (write_ok_run C L CE o ses p cs key WC K) as W.
    pose proof (write_len C L CE o ses p cs WC Hid) as WL.
    destruct (crun C CE (client_write C o ses p) cs) as [w c1]. cbv zeta in W.
    rewrite N.mod_small in W by exact Hc. set (c := c_ctr cs + 1) in *.
    destruct W as (Wc & Wi & Wb & [(W0 & _)|(_ & Wl & _ & -> & Ws)]); [unfold c in W0; lia|].
    destruct (WL _ _ _ eq_refl) as [WL' _]. rewrite WL'.
    set (ct := gcm_seal C key (gcm_nonce dir_c2s c) p) in *. rewrite Ho in *.
    set (q := enc_request (RqProcess (cs_id ses) c ct true)) in *.
    assert (Sq : sent_by_client cs c1 = q).
    { unfold sent_by_client. rewrite Ws, skipn_app_exact. unfold wire. cbn [map concat fst snd]. rewrite app_nil_r. apply takeN_all. }
    rewrite Sq.
    assert (Hok : request_ok (RqProcess (cs_id ses) c ct true)).
    { split; [exact Hid|]. split; [exact Hc|]. unfold ct. rewrite (gcm_seal_len _ L). exact Hp. }
    assert (Hwf' : wf (set_in ss q)) by (apply (wf_same ss); auto).
    pose proof (process_accepted C SE (set_in ss q) chost (cs_id ses) ct [] c true Hok) as PA.
    specialize (PA ltac:(cbn [set_in s_in]; rewrite app_nil_r; reflexivity) (Q _) Hh).
    specialize (PA _ hist Hkn Hhist eq_refl Hwf' Hnr key (eq_trans (eq_sym (client_server_gcm C _)) K) p (gcm_open_seal _ L _ _ _)).
    pose proof (WF_conn C SE (set_in ss q) Hwf') as WF'.
    destruct (srun C SE (conn_body C) (set_in ss q)) as [res ss'] eqn:R. cbn [snd] in WF'.
    destruct PA as ((ptr & Pc) & [Pk Pother] & _ & i & Pr).
    destruct (HH i) as (out & Eo & One & Ol). rewrite Eo in Pr. cbv zeta in Pr. destruct Pr as [_ Pr].
    destruct (Pr WS) as [Prs _].
    rewrite (responded_wire C SE _ _ _ _ _ _ WS R Prs).
    set (rc := gcm_seal C key (gcm_nonce dir_s2c c) out) in *.
    destruct (read_fresh_run C CE o ses n (c_set_in c1 (enc_response (RsProcess c rc)))
      (enc_response (RsProcess c rc)) [] c rc key WC) as (r & c2 & Rr & Ri & (Rw1 & Rw2 & Rw3 & Rw4) & Rb).
    - cbn [c_set_in c_buf]. congruence.
    - cbn [c_set_in c_in]. rewrite app_nil_r. reflexivity.
    - exists x80. split; [reflexivity|]. split; [cbn; lia|]. split; [exact Hc|]. unfold rc. rewrite (gcm_seal_len _ L). exact Ol.
    - exact K.
    - rewrite Rr. cbn [c_set_in c_last] in Rb. rewrite Wl, N.eqb_refl in Rb. unfold rc in Rb. rewrite (gcm_open_seal _ L) in Rb.
      destruct out as [|x out]; [congruence|]. destruct Rb as [-> Rb].
      split; [reflexivity|]. split; [exists ptr; exact Pc|]. split.
      { exists i, (x :: out). split; [exact Eo|]. split; [reflexivity|exact Rb]. }
      split; [cbn [c_set_in c_ctr] in Rw2; congruence|]. split; [exact Ri|]. split; [exact WF'|]. split; [exact Pk|].
      intros h j Hne. rewrite (Pother h j Hne). reflexivity.
  Qed.

  (** Any number of messages. *)
  Lemma e2e_rounds ses n (f : bytes -> bytes) : forall ps hist cs ss,
    paired C ses chost hist cs ss -> Forall (fun c => c <= c_ctr cs) hist -> c_ctr cs + lenN ps < 2 ^ 64 ->
    Forall (fun p => lenN p + 16 <= 2 ^ 30) ps ->
    (forall i p, In p ps -> e_handler SE i true p = HOk (f p) /\ f p <> [] /\ lenN (f p) + 16 <= 2 ^ 30 /\ lenN (f p) <= n) ->
    let '(rs, cs', ss') := rounds C CE SE o ses n ps cs ss in
    rs = map (fun p => Some (RdOk (f p) true)) ps /\
    map snd (s_calls ss') = map snd (s_calls ss) ++ ps /\
    exists hist', paired C ses chost hist' cs' ss' /\ Forall (fun c => c <= c_ctr cs') hist'.
  Proof.
    induction ps as [|p ps IH]; intros hist cs ss P F Hc Hp HH; cbn [rounds].
    - split; [reflexivity|]. split; [rewrite app_nil_r; reflexivity|]. exists hist. auto.
    - rewrite lenN_cons in Hc. inversion Hp as [|? ? Hp1 Hp2]; subst.
      pose proof (e2e_round ses hist cs ss p n P ltac:(lia) (next_not_refused _ _ F) Hp1) as R.
      cbv zeta in R. destruct (round C CE SE o ses p n cs ss) as [[[w r] c1] s1].
      destruct R as (_ & (ptr & Rc) & (i & out & Ro & -> & Rb) & Rctr & Ri & Rwf & Rk & _).
      { intros i. destruct (HH i p (or_introl eq_refl)) as (A1 & A2 & A3 & _). eauto. }
      destruct (HH i p (or_introl eq_refl)) as (A1 & A2 & A3 & A4). rewrite A1 in Ro. injection Ro as <-.
      assert (P1 : paired C ses chost (hist ++ [c_ctr cs + 1]) c1 s1).
      { destruct P as [P1 P2 P3 P4 P5]. split; auto.
        - apply Forall_app. split; [exact P4|]. constructor; [lia|constructor].
        - rewrite Rb. unfold dropN. apply N.leb_le in A4. rewrite A4. reflexivity. }
      specialize (IH _ _ _ P1). destruct (rounds C CE SE o ses n ps c1 s1) as [[rs c2] s2].
      destruct IH as (-> & I2 & I3); auto.
      + rewrite Rctr. apply Forall_app. split; [|constructor; [lia|constructor]].
        rewrite Forall_forall in *. intros x Hx. apply F in Hx. lia.
      + lia.
      + intros j p' Hin. apply HH. right; exact Hin.
      + split; [|split; [|exact I3]].
        * cbn [map]. f_equal. f_equal. unfold takeN. apply N.leb_le in A4. rewrite A4. reflexivity.
        * rewrite I2, Rc, map_app, <- app_assoc. reflexivity.
  Qed.
End Round.
