(** Lemmas for C176: dialling with a key from DNS. *)
From Coq Require Import Strings.String Permutation.
From Verif Require Import Bytes BytesProofs Parser ParserProofs Crypto Kdf Wire WireProofs WireSeq WireExtra Replay SpecReplay
  ReplayProofs Server ServerSeq SpecServer ServerProofs ServerProps ServerProps2 ServerProps3 MultiConn SpecMulti Keys KeysProofs
  Client ClientSeq SpecClient ClientProofs ClientProps SpecE2E E2EProofs Dnssec SpecDnssec DnssecThms DnssecOrder
  System SpecSystem SystemProofs QuickStart Production.

Lemma material_verifies C alg raw pk content sig : material alg raw pk -> exists b, verify_signature C pk SHA512 content sig = VOk b.
Proof.
  intros M. unfold verify_signature. cbn [digest]. destruct M as [| | |k Hk]; try (eexists; reflexivity).
  rewrite Hk. cbn [Nat.eqb]. eexists. reflexivity.
Qed.

(** What a handshake comes to if the server answered in proper form. *)
Lemma handshake_verdict C E host s pk rnd sk spub sig rest h hs b :
  c_works E -> ce_fetch E host = Some pk -> ce_rand E = Some rnd -> ce_gen E = Some sk ->
  response_ok (RsSetup spub h sig) -> c_in s = enc_response (RsSetup spub h sig) ++ rest ->
  crypto_hash h = Some hs -> verify_signature C pk hs (hs_transcript C sk spub rnd) sig = VOk b -> b = false ->
  fst (crun C E (handshake C (Some host)) s) = Some (inl HsSignature).
Proof.
  intros W Ef Er Eg Hok Hin Hh Hv ->. unfold handshake.
  rewrite crun_do. cbn [cexec fst snd]. rewrite Ef. rewrite crun_do. cbn [cexec fst snd]. rewrite Er. cbv zeta.
  rewrite crun_do. cbn [cexec fst snd]. rewrite Eg.
  set (q := enc_setup_req (new_setup_request (uuid_of rnd) (x_pub C sk))).
  rewrite crun_do. cbn [cexec]. pose proof (proj1 W (c_step s) q) as [W1 W2].
  destruct (ce_write E (c_step s) q) as [n er]. cbn [fst snd] in W1, W2. subst er. cbv zeta. cbn [fst snd].
  rewrite N.min_r by exact W1. rewrite N.eqb_refl. cbn [negb].
  set (s1 := c_add_sent (c_tick s) q (lenN q)).
  rewrite crun_bind, crun_lift. change (c_in s1) with (c_in s). rewrite Hin.
  pose proof (read_response_rt C action_setup (RsSetup spub h sig) rest (ce_end E) Hok eq_refl) as RT.
  unfold read_response in RT. rewrite run_bind in RT.
  destruct (run parse_resp_common _ _) as [[e|rc] i1] eqn:E1; [discriminate|]. cbn [fst snd].
  destruct (rs_success rc); cbn [negb] in RT |- *.
  2:{ rewrite run_bind in RT. destruct (run _ i1 _) as [[e|er] i2]; discriminate. }
  change (action_setup =? action_hello) with false in RT. change (action_setup =? action_setup) with true in RT.
  cbv iota in RT. rewrite run_bind in RT. rewrite crun_bind, crun_lift. cbn [c_in c_set_in].
  destruct (run (parse_setup_resp C rc) i1 (ce_end E)) as [[e|ss] i2] eqn:E2; [discriminate|]. cbn [fst snd run] in RT |- *.
  assert (ss_pub ss = spub /\ ss_hash ss = h /\ ss_sig ss = sig /\ i2 = rest) as (-> & -> & -> & ->)
    by (repeat split; congruence). clear RT.
  rewrite Hh. unfold hs_transcript in Hv. rewrite Hv. reflexivity.
Qed.

(** The server's side of an undisturbed handshake. *)
Lemma server_answers C CE SE chost host csk rnd ssk ss : CryptoLaws C -> undisturbed C CE SE chost host csk rnd ssk -> wf ss ->
  let q := enc_request (RqSetup (uuid_of rnd) (x_pub C csk)) in
  let '(r, ss') := srun C SE (conn_body C) (set_in ss q) in
  exists k srnd sig, sent_by_server ss ss' = enc_response (RsSetup (x_pub C k) 4 sig) /\ response_ok (RsSetup (x_pub C k) 4 sig) /\
    sign C ssk srnd SHA512 (setup_transcript (x_pub C csk) (x_pub C k) (uuid_of rnd)) = KOk sig.
Proof.
  intros L U Hwf. cbv zeta. set (id := uuid_of rnd). set (q := enc_request (RqSetup id (x_pub C csk))).
  destruct (u_rand _ _ _ _ _ _ _ _ U) as [Hr Hrl].
  assert (Hid : length id = 16%nat) by (apply uuid_length, Hrl).
  assert (Hok : request_ok (RqSetup id (x_pub C csk))) by (split; [exact Hid|apply (x_pub_len _ L)]).
  assert (Hwf' : wf (set_in ss q)) by (apply (wf_same ss); auto).
  pose proof (setup_spec C SE (set_in ss q) id (x_pub C csk) [] L Hok) as SP.
  specialize (SP ltac:(unfold q; cbn [set_in s_in]; rewrite app_nil_r; reflexivity) (u_quit _ _ _ _ _ _ _ _ U _) Hwf').
  destruct (srun C SE (conn_body C) (set_in ss q)) as [r ss'] eqn:R.
  destruct SP as (_ & _ & [(h & i & sk & shared & j & sig & Eh & Eg & Ed & Es & [Kn _] & _ & Rs)|
    [(_ & (c & t & _ & Hreason) & _)|(h & i & sk & shared & j & Eh & Eg & Ed & _ & Hs)]]).
  - destruct (Rs (u_server _ _ _ _ _ _ _ _ U)) as [Rsp ->].
    destruct (u_sign _ _ _ _ _ _ _ _ U j (be_enc 4 44 ++ pkix_x25519 (x_pub C csk) ++ be_enc 4 44 ++
      pkix_x25519 (x_pub C sk) ++ id)) as (srnd & sig' & Es' & Esg & Hne & Hl).
    rewrite Es in Es'. injection Es' as <-.
    assert (Tr : be_enc 4 44 ++ pkix_x25519 (x_pub C csk) ++ be_enc 4 44 ++ pkix_x25519 (x_pub C sk) ++ id =
                 setup_transcript (x_pub C csk) (x_pub C sk) id).
    { unfold setup_transcript, pkix_x25519. cbv zeta. unfold lenN. rewrite !app_length, !(x_pub_len _ L). reflexivity. }
    rewrite Tr in Esg. exists sk, srnd, sig.
    split; [exact (responded_wire C SE _ _ _ _ _ _ (u_server _ _ _ _ _ _ _ _ U) R Rsp)|].
    split; [|exact Esg]. repeat split; auto. apply (x_pub_len _ L).
  - exfalso. destruct Hreason as [[-> [[i Hg]|(i & sk & Hg & Hd)]]|[-> [Hh|[i Hs]]]].
    + destruct (u_sgen _ _ _ _ _ _ _ _ U i) as (k & Hk & _). congruence.
    + destruct (u_sgen _ _ _ _ _ _ _ _ U i) as (k & Hk & Hd'). congruence.
    + rewrite (u_host _ _ _ _ _ _ _ _ U) in Hh. discriminate.
    + rewrite (u_store _ _ _ _ _ _ _ _ U) in Hs. discriminate.
  - exfalso. cbv zeta in Hs. set (tr := be_enc 4 44 ++ _) in Hs.
    destruct (u_sign _ _ _ _ _ _ _ _ U j tr) as (? & ? & Hs' & _).
    destruct Hs as [[Hs _]|[Hs _]]; congruence.
Qed.

Theorem zone_key_first C CE SE chost host csk rnd ssk pk answers s s' alg raw pk' : CryptoLaws C ->
  undisturbed C (knowing CE pk) SE chost host csk rnd ssk ->
  carries pk -> build_dnskey pk = KOk s -> In s answers -> In s' answers -> zsk s' alg raw -> material alg raw pk' ->
  exists order, Permutation order answers /\
  forall answer cs ss, answer host = DohAnswer 200 (Some (true, order)) -> wf ss ->
  let '(r, ss') := srun C SE (conn_body C) (set_in ss (enc_request (RqSetup (uuid_of rnd) (x_pub C csk)))) in
  let '(h, cs') := crun C (resolving CE answer) (handshake C (Some host)) (c_set_in cs (sent_by_server ss ss')) in
  h = Some (inl HsSignature) \/
  exists content srnd sig, sign C ssk srnd SHA512 content = KOk sig /\ verify_signature C pk' SHA512 content sig = VOk true.
Proof.
  intros L U Hc B Is Is' Z M. destruct (moved_first _ _ _ _ _ Is' Z M) as (order & Pm & D).
  exists order. split; [exact Pm|]. intros answer cs ss Ha Hwf.
  pose proof (server_answers C _ SE chost host csk rnd ssk ss L U Hwf) as SA. cbv zeta in SA.
  destruct (srun C SE (conn_body C) _) as [r ss']. destruct SA as (k & srnd & sig & Sw & Rok & Sg).
  set (tr := setup_transcript _ _ _) in Sg. destruct (material_verifies C _ _ _ tr sig M) as [[|] V].
  - destruct (crun _ _ _ _) as [h cs']. right. exists tr, srnd, sig. auto.
  - pose proof (handshake_verdict C (resolving CE answer) host (c_set_in cs (sent_by_server ss ss')) pk' rnd csk (x_pub C k) sig []
      4 SHA512 false) as HV.
    destruct (crun C (resolving CE answer) (handshake C (Some host)) (c_set_in cs (sent_by_server ss ss'))) as [h cs'] eqn:R.
    left. cbn [fst] in HV. apply HV; try reflexivity; try assumption.
    + exact (u_client _ _ _ _ _ _ _ _ U).
    + cbn [resolving ce_fetch]. rewrite Ha, D. reflexivity.
    + exact (proj1 (u_rand _ _ _ _ _ _ _ _ U)).
    + exact (u_gen _ _ _ _ _ _ _ _ U).
    + cbn [c_set_in c_in]. rewrite app_nil_r. exact Sw.
Qed.

Lemma resolved C CE SE chost host csk rnd ssk pk answer : doh_retrieve (answer host) = KOk pk ->
  undisturbed C (knowing CE pk) SE chost host csk rnd ssk -> undisturbed C (resolving CE answer) SE chost host csk rnd ssk.
Proof.
  intros D [U1 U2 U3 (alg & pk0 & U4 & U4') U5 U6 U7 U8 U9 U10]. split; auto.
  exists alg, pk0. split; [exact U4|]. cbn [resolving knowing ce_fetch] in *. rewrite D. exact U4'.
Qed.

Theorem production C CE E tcp me inputs m chost host csk rnd ssk o n f ps pk answers order answer s : CryptoLaws C ->
  undisturbed C (knowing CE pk) (E me) chost host csk rnd ssk ->
  carries pk -> build_dnskey pk = KOk s -> In s answers -> (forall x alg raw, In x answers -> zsk x alg raw -> material alg raw pk) ->
  Permutation order answers -> answer host = DohAnswer 200 (Some (true, order)) ->
  tcp me = true -> wf (join m (fresh_conn C true [])) ->
  lenN ps < 2 ^ 64 -> Forall (fun p => lenN p + 16 <= 2 ^ 30) ps ->
  (forall i p, In p ps -> e_handler (E me) i (co_reply o) p = HOk (f p)) ->
  (co_reply o = true -> Forall (fun p => f p <> [] /\ lenN (f p) + 16 <= 2 ^ 30 /\ lenN (f p) <= n) ps) ->
  let key := session_key C chost (uuid_of rnd) in
  let start := dialling C tcp inputs m me (talk C o (Some host) n ps) in
  exists N, forall sched x,
    spares C (resolving CE answer) E tcp me key sched start -> sys_run C (resolving CE answer) E tcp me sched start = Some x ->
    (own_moves sched <= N)%nat /\
    (rests C (resolving CE answer) E tcp me x <-> own_moves sched = N) /\
    (rests C (resolving CE answer) E tcp me x ->
       y_cl x = CRet (inr (expected o f ps)) /\
       seen (c_calls (t_conn (y_srv x) me)) = numbered 1 (co_reply o) ps) /\
    (forall a, y_cl x = CRet a -> a = inr (expected o f ps)) /\ y_cl x <> CPanic /\
    exists later, numbered 1 (co_reply o) ps = seen (c_calls (t_conn (y_srv x) me)) ++ later.
Proof.
  intros L U Hc B Is All Pm Ha Ht Hwf Hn Hps Hh Hf.
  pose proof (any_order answers order pk s Hc B Is All Pm) as D. rewrite <- Ha in D.
  apply (conversation C (resolving CE answer) E tcp me inputs m chost host csk rnd ssk o n f ps); try assumption.
  exact (resolved _ _ _ _ _ _ _ _ _ _ D U).
Qed.
