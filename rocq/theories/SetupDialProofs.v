(** Lemmas for C181: the client that dials while its Setup request is duplicated. *)
From Verif Require Import Bytes BytesProofs Parser ParserProofs Crypto Kdf Wire WireProofs WireSeq WireExtra Replay SpecReplay
  ReplayProofs Server ServerSeq SpecServer ServerProofs ServerProps ServerProps2 ServerProps3 MultiConn SpecMulti Keys KeysProofs
  Client ClientSeq SpecClient ClientProofs SpecE2E E2EProofs LostProofs SpecSystem DuoTalk Udp SpecUdp UdpProofs UdpThms UdpMore UdpTalk
  SpecUdpLoss UdpLoss SpecUdpDup UdpDup SetupTwiceProofs.

Lemma left_since_out a b n n' : n_out n' = n_out n ++ [(a, b)] -> left_since n n' = [b].
Proof. intros H. unfold left_since. rewrite H, skipn_app_exact. reflexivity. Qed.

(** The handshake of a client whose socket holds a good answer first. *)
Lemma dial_first C CE chunk send host pk rnd csk spub sig shared srv q u net cs :
  (forall i, ce_deadline CE i = true) -> (forall i b, lenN b <= 65507 -> send i b = true) ->
  ce_fetch CE host = Some pk -> ce_rand CE = Some rnd -> length rnd = 16%nat -> ce_gen CE = Some csk -> length (x_pub C csk) = 32%nat ->
  response_ok (RsSetup spub 4 sig) -> verify_signature C pk SHA512 (hs_transcript C csk spub rnd) sig = VOk true ->
  x_dh C csk spub = Some shared ->
  udp_client u -> n_closed net = false -> n_in net = (srv, enc_response (RsSetup spub 4 sig)) :: q ->
  exists u' net' cs', ucrun C CE chunk send (handshake C (Some host)) (u, net) cs =
      (Some (inr {| cs_secret := shared; cs_id := uuid_of rnd |}), ((u', net'), cs')) /\
    udp_client u' /\ n_closed net' = false /\ n_in net' = q /\
    n_out net' = n_out net ++ [(None, enc_request (RqSetup (uuid_of rnd) (x_pub C csk)))] /\ c_buf cs' = c_buf cs /\ c_ctr cs' = c_ctr cs.
Proof.
  intros WC Hsend Ef Er Hrl Eg Hpl Hok Hv Hd Hu Hc Hin. set (id := uuid_of rnd). set (rq := enc_request (RqSetup id (x_pub C csk))).
  assert (Hid : length id = 16%nat) by (apply uuid_length, Hrl).
  set (out := enc_response (RsSetup spub 4 sig)) in *.
  set (c1 := c_add_sent (c_tick cs) rq (lenN rq)).
  set (n1 := {| n_in := n_in net; n_out := n_out net ++ [(None, rq)]; n_step := S (n_step net); n_closed := n_closed net |}).
  assert (P1 : ucrun C CE chunk send (handshake C (Some host)) (u, net) cs = ucrun C CE chunk send (hs_rest C pk id csk) (u_set_read u false, n1) c1).
  { rewrite handshake_head. cbn [ucrun ucexec cexec]. rewrite Ef. cbn [ucrun ucexec cexec]. rewrite Er. cbn [ucrun ucexec cexec]. rewrite Eg. cbv zeta.
    change (enc_setup_req (new_setup_request (uuid_of rnd) (x_pub C csk))) with rq. cbn [ucrun ucexec].
    unfold udp_write, net_send. destruct Hu as [H1 H2]. rewrite H1, Hc. rewrite Hsend.
    2:{ unfold rq. rewrite len_setup_req; [lia|exact Hid|exact Hpl]. }
    cbn [andb negb]. rewrite N.eqb_refl. cbn [negb]. unfold n1. rewrite Hc. reflexivity. }
  rewrite P1. clear P1.
  destruct (handshake_ok C (eof_env CE) host (c_set_in cs out) pk rnd csk spub sig [] shared 4 SHA512 (eof_works CE WC) Ef Er Eg Hok)
    as (c3 & Hr & Hi & Hst & Hb3 & Hct & _); auto.
  { rewrite app_nil_r. reflexivity. }
  assert (Hc' : crun C (eof_env CE) (hs_rest C pk id csk) (c_set_in c1 out) = (Some (inr {| cs_secret := shared; cs_id := id |}), c3)).
  { etransitivity; [|exact Hr]. unfold handshake.
    assert (X1 : ce_fetch (eof_env CE) host = Some pk) by exact Ef. assert (X2 : ce_rand (eof_env CE) = Some rnd) by exact Er.
    assert (X3 : ce_gen (eof_env CE) = Some csk) by exact Eg.
    rewrite crun_do. cbn [cexec fst snd]. rewrite X1. rewrite crun_do. cbn [cexec fst snd]. rewrite X2.
    rewrite crun_do. cbn [cexec fst snd]. rewrite X3. cbv zeta. rewrite crun_do. cbn [cexec].
    change (enc_setup_req (new_setup_request (uuid_of rnd) (x_pub C csk))) with rq.
    cbn [ce_write eof_env]. rewrite N.min_id. cbn [fst snd]. rewrite N.eqb_refl. cbn [negb]. reflexivity. }
  assert (Hh1 : holds (u_set_read u false) n1 out q) by (right; split; [reflexivity|]; split; [exact Hc|]; exists srv; exact Hin).
  pose proof (ucrun_flat C CE chunk send _ _ (nowrite_rest C pk id csk) _ _ c1 _ _ Hh1) as F. rewrite Hc' in F.
  destruct F as (u2 & n2 & s2 & -> & E3 & H3 & (R1 & R2 & R3 & R4 & R5) & D3).
  rewrite Hi in H3, D3. destruct H3 as [(X1 & X2 & X3)|(X & _ & _)]; [|exfalso; apply (enc_response_ne (RsSetup spub 4 sig)); symmetry; apply D3, X].
  rewrite E3 in Hb3, Hct. change (c_buf s2 = c_buf cs) in Hb3. change (c_ctr s2 = c_ctr cs) in Hct.
  exists u2, n2, s2. split; [reflexivity|]. split; [apply R1; exact Hu|]. split; [rewrite R2; exact Hc|]. split; [exact X3|]. split; [exact R3|]. auto.
Qed.

Lemma dial_then_nothing C CE SE hostof chunk send me srv chost host csk rnd ssk : CryptoLaws C -> undisturbed C CE SE chost host csk rnd ssk ->
  (forall i b, lenN b <= 65507 -> send i b = true) -> hostof me = Some chost ->
  (forall i m sig, e_sign SE i SHA512 m = KOk sig -> lenN sig + 54 <= 65507) ->
  forall ss sn k, wf ss -> n_closed sn = false -> n_in sn = [] ->
  let q := enc_request (RqSetup (uuid_of rnd) (x_pub C csk)) in
  let '(out, (sn1, ss1)) := serve_each C SE hostof chunk send me (repeat q (S (S k))) sn ss in
  s_calls ss1 = s_calls ss /\ exists first others, out = first :: others /\ length others = S k /\
  exists sec2 key2, known C ss1 chost (uuid_of rnd) = Some {| ses_secret := sec2; ses_win := new_window |} /\ new_gcm C sec2 = Some key2 /\
  forall late u net cs, incl late others -> udp_client u -> n_closed net = false -> n_in net = map (pair srv) (first :: late) -> c_buf cs = [] ->
  let '(h, ((u1, net1), cs1)) := ucrun C CE chunk send (handshake C (Some host)) (u, net) cs in
  left_since net net1 = [q] /\ exists ses key1, h = Some (inr ses) /\ cs_id ses = uuid_of rnd /\ client_gcm C (cs_secret ses) = Some key1 /\
  forall o n ps, co_reply o = true -> c_ctr cs + lenN ps < two64 -> Forall (fun p => lenN p + 50 <= 65507) ps ->
  Forall (fun x => let '(c, _, p) := x in gcm_open C key2 (gcm_nonce dir_c2s c) (gcm_seal C key1 (gcm_nonce dir_c2s c) p) = None) (numbered (c_ctr cs + 1) true ps) ->
  let '(res, (_, (_, ss2))) := lossy C CE SE hostof chunk send me srv o ses n (map (fun p => (p, Arrives, 0%nat)) ps) (u1, net1) cs1 sn1 ss1 in
  length res = length ps /\ Forall (fun r => exists e, r = [Some (RdErr e)]) res /\ s_calls ss2 = s_calls ss.
Proof.
  intros L U Hsend Hh Hsg ss sn k Hwf Hc Hin. cbv zeta. set (id := uuid_of rnd).
  destruct (u_rand _ _ _ _ _ _ _ _ U) as [Hr Hrl].
  assert (Hid : length id = 16%nat) by (apply uuid_length, Hrl).
  assert (Hok : request_ok (RqSetup id (x_pub C csk))) by (split; [exact Hid|apply (x_pub_len _ L)]).
  assert (Hsig : forall i m, exists sig, e_sign SE i SHA512 m = KOk sig /\ lenN sig + 54 <= 65507).
  { intros i m. destruct (u_sign _ _ _ _ _ _ _ _ U i m) as (r & sig & E & _). eauto. }
  pose proof (serve_setups C SE hostof chunk send me chost L Hsend Hh id _ Hok (u_sgen _ _ _ _ _ _ _ _ U) (u_store _ _ _ _ _ _ _ _ U) Hsig (S (S k)) ss sn Hwf Hc Hin) as S.
  destruct (serve_each _ _ _ _ _ _ _ sn ss) as [out [sn1 s1]]. destruct S as (l0 & -> & S1 & S2 & S3 & S4 & S5 & S6 & S7 & S8).
  split; [exact S5|]. destruct l0 as [|[sk sig] l0]; [discriminate|]. exists (answer C (sk, sig)), (map (answer C) l0).
  split; [reflexivity|]. split; [rewrite map_length; cbn in S1; lia|].
  destruct (@exists_last _ l0) as (l & y & E0); [destruct l0; discriminate|].
  destruct (S7 ((sk, sig) :: l) y) as (sec2 & Dy & Ky); [rewrite E0; reflexivity|].
  destruct (client_gcm_some C L sec2) as (key2 & K2). change (client_gcm C sec2) with (new_gcm C sec2) in K2.
  exists sec2, key2. split; [exact Ky|]. split; [exact K2|].
  intros late u net cs Hl Hu Hcn Hni Hb.
  inversion S6 as [|? ? ((i0 & G0) & j0 & Es) _]; subst. cbn [fst snd] in G0, Es.
  destruct (u_sign _ _ _ _ _ _ _ _ U j0 (be_enc 4 44 ++ pkix_x25519 (x_pub C csk) ++ be_enc 4 44 ++ pkix_x25519 (x_pub C sk) ++ id))
    as (srnd & sig' & Es' & Esg & Hne & Hlen).
  rewrite Es in Es'. injection Es' as <-. destruct (u_fetch _ _ _ _ _ _ _ _ U) as (alg & pk & Fk & Fc).
  assert (Tr : be_enc 4 44 ++ pkix_x25519 (x_pub C csk) ++ be_enc 4 44 ++ pkix_x25519 (x_pub C sk) ++ id = setup_transcript (x_pub C csk) (x_pub C sk) id).
  { unfold setup_transcript, pkix_x25519. cbv zeta. unfold lenN. rewrite !app_length, !(x_pub_len _ L). reflexivity. }
  rewrite Tr in Esg. pose proof (sign_verify C L _ _ _ _ _ _ _ Esg Fk) as V.
  destruct (u_sgen _ _ _ _ _ _ _ _ U i0) as (sk' & G0' & D0). rewrite G0 in G0'. injection G0' as <-.
  rewrite (x_dh_comm _ L) in D0. destruct (x_dh C csk (x_pub C sk)) as [shared|] eqn:Dx; [|congruence].
  destruct (dial_first C CE chunk send host pk rnd csk (x_pub C sk) sig shared srv (map (pair srv) late) u net cs) as (u1 & net1 & cs1 & R & A1 & A2 & A3 & A4 & A5 & A6); auto.
  { apply (u_client _ _ _ _ _ _ _ _ U). }
  { apply (u_gen _ _ _ _ _ _ _ _ U). }
  { apply (x_pub_len _ L). }
  { repeat split; auto. apply (x_pub_len _ L). }
  rewrite R. split; [exact (left_since_out _ _ _ _ A4)|]. destruct (client_gcm_some C L shared) as (key1 & K1).
  eexists _, key1. split; [reflexivity|]. split; [reflexivity|]. split; [exact K1|]. intros o n ps Ho Hlt Hp Hno.
  pose proof (never_again C CE SE hostof chunk send me srv chost L (proj2 (u_client _ _ _ _ _ _ _ _ U)) Hsend Hh o
    {| cs_secret := shared; cs_id := id |} n id key1 sec2 key2 eq_refl Hid Ho K1 K2 ps [] late cs1 u1 net1 sn1 s1 S4 Ky) as N.
  destruct (lossy _ _ _ _ _ _ _ _ _ _ _ _ _ _ sn1 s1) as [res [z [sn2 s2]]].
  destruct N as (N1 & N2 & N3); auto; try (rewrite A6; assumption).
  { congruence. }
  { apply Forall_forall. intros d Hd. apply Hl, in_map_iff in Hd as (a & <- & _). apply (answer_useless C L). }
  split; [exact N1|]. split; [exact N2|]. congruence.
Qed.
