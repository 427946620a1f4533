(** Codes of the draft's registries, and the code of a request that does not
    decrypt. *)
From Verif Require Import Bytes BytesProofs Parser Crypto Kdf Wire WireSeq Replay Server ServerSeq SpecServer ServerProps ServerProps2
  Keys Client ClientSeq SpecClient SpecE2E E2EProofs ClientConc SpecUsage DraftProofs2 ReplayProofs DraftProofs3.

Lemma published_codes :
  (version1, action_hello, action_setup, action_process, action_fetch_key) = (1, 1, 2, 3, 4) /\
  (code_malformed, code_server_error, code_unknown_client, code_unsupported_version, code_replay) = (1, 2, 3, 4, 5) /\
  (forall h, new_hash_type h = match h with SHA256 => Some 2 | SHA384 => Some 3 | SHA512 => Some 4 | HOther _ => None end) /\
  (forall t h, crypto_hash t = Some h <-> new_hash_type h = Some t) /\
  (forall C sk alg pk, fetch_key C sk = KOk (alg, pk) ->
     match pk with PkRSA _ _ => alg = 1 | PkECDSA _ _ _ => alg = 2 | PkEd25519 _ => alg = 3 | _ => False end).
Proof.
  split; [reflexivity|]. split; [reflexivity|]. split; [intros []; reflexivity|]. split.
  - intros t h. unfold crypto_hash.
    destruct (N.eqb_spec t 2) as [->|H2]; [destruct h; cbn; split; intros X; try discriminate X; reflexivity|].
    destruct (N.eqb_spec t 3) as [->|H3]; [destruct h; cbn; split; intros X; try discriminate X; reflexivity|].
    destruct (N.eqb_spec t 4) as [->|H4]; [destruct h; cbn; split; intros X; try discriminate X; reflexivity|].
    split; [discriminate|]. destruct h; cbn; intros X; try discriminate X; injection X as <-; congruence.
  - intros C sk alg pk. destruct sk as [k|k|k|]; cbn [fetch_key]; [| |  |discriminate].
    + intros X. injection X as <- <-. reflexivity.
    + destruct (ecdsa_pub C k) as [[c x] y]. intros X. injection X as <- <-. reflexivity.
    + intros X. injection X as <- <-. reflexivity.
Qed.

Lemma error_code_octets c c' t t' : c < 2 ^ 32 -> c' < 2 ^ 32 ->
  enc_response (RsError c t) = enc_response (RsError c' t') -> c = c'.
Proof.
  intros H H' X.
  assert (T : forall c t, takeN 4 (dropN 1 (enc_response (RsError c t))) = be_enc 4 (c mod two32)).
  { intros d u. cbn [enc_response]. unfold enc_error_resp. change (enc_resp_common _) with [x00].
    rewrite (dropN_app [x00] _ 1) by reflexivity. apply takeN_app. apply be_enc_lenN. }
  apply (f_equal (fun b => be_dec (takeN 4 (dropN 1 b)))) in X. cbv beta in X. rewrite !T in X.
  change (2 ^ 32) with two32 in *. rewrite !N.mod_small, !be_dec_enc_small in X by assumption. exact X.
Qed.

Lemma unauthentic_code C E s host id msg rest ctr reply :
  request_ok (RqProcess id ctr msg reply) ->
  s_in s = enc_request (RqProcess id ctr msg reply) ++ rest ->
  e_quit E (s_step s) = false -> e_host E = Some host ->
  forall ses hist, known C s host id = Some ses ->
  Forall (fun c => c < 2 ^ 64) hist -> snd (checks new_window hist) = ses_win ses ->
  wf s -> ~ refused_after hist ctr ->
  forall key, new_gcm C (ses_secret ses) = Some key ->
  gcm_open C key (x00 :: repeat x00 3 ++ be_enc 8 ctr) msg = None ->
  let '(_, s') := srun C E (conn_body C) s in
  (exists t, responded s s' (RsError 2 t)) /\ forall t, ~ responded s s' (RsError 1 t).
Proof.
  intros H1 H2 H3 H4 ses hist H5 H6 H7 H8 H9 key H10 H11.
  pose proof (process_unauthentic C E s host id msg rest ctr reply H1 H2 H3 H4 ses hist H5 H6 H7 H8 H9 key H10 H11) as P.
  destruct (srun C E (conn_body C) s) as [res s']. destruct P as ((t & n & P) & _).
  split; [exists t, n; exact P|]. intros t' (n' & X). rewrite P in X. apply app_inv_head in X.
  assert (Y : enc_response (RsError 2 t) = enc_response (RsError 1 t')) by congruence.
  apply error_code_octets in Y; [discriminate Y|reflexivity|reflexivity].
Qed.

(** A request that asks for no answer, of a session the server does not know,
    with a counter already seen, or that does not decrypt. *)
Lemma unasked_answers C E s host id msg rest ctr :
  request_ok (RqProcess id ctr msg false) ->
  s_in s = enc_request (RqProcess id ctr msg false) ++ rest ->
  e_quit E (s_step s) = false -> e_host E = Some host ->
  (known C s host id = None ->
     exists t, responded s (snd (srun C E (conn_body C) s)) (RsError 3 t)) /\
  (forall ses hist, known C s host id = Some ses ->
     Forall (fun c => c < 2 ^ 64) hist -> snd (checks new_window hist) = ses_win ses ->
     (refused_after hist ctr -> exists t, responded s (snd (srun C E (conn_body C) s)) (RsError 5 t)) /\
     (wf s -> ~ refused_after hist ctr -> forall key, new_gcm C (ses_secret ses) = Some key ->
      (gcm_open C key (x00 :: repeat x00 3 ++ be_enc 8 ctr) msg = None ->
       exists t, responded s (snd (srun C E (conn_body C) s)) (RsError 2 t)) /\
      (forall pt, gcm_open C key (x00 :: repeat x00 3 ++ be_enc 8 ctr) msg = Some pt ->
       (forall i, e_handler E i false pt = HErr) ->
       exists t, responded s (snd (srun C E (conn_body C) s)) (RsError 2 t)))).
Proof.
  intros H1 H2 H3 H4. split.
  - intros H. pose proof (process_unknown C E s host id msg rest ctr false H1 H2 H3 H4 H) as P.
    destruct (srun C E (conn_body C) s) as [res s']. tauto.
  - intros ses hist H5 H6 H7. split.
    + intros H8. pose proof (process_replay C E s host id msg rest ctr false H1 H2 H3 H4 ses hist H5 H6 H7 H8) as P.
      destruct (srun C E (conn_body C) s) as [res s']. tauto.
    + intros H8 H9 key H10. split.
      * intros H11. pose proof (process_unauthentic C E s host id msg rest ctr false H1 H2 H3 H4 ses hist H5 H6 H7 H8 H9 key H10 H11) as P.
        destruct (srun C E (conn_body C) s) as [res s']. tauto.
      * intros pt H11 HE. pose proof (process_accepted C E s host id msg rest ctr false H1 H2 H3 H4 ses hist H5 H6 H7 H8 H9 key H10 pt H11) as P.
        destruct (srun C E (conn_body C) s) as [res s']. destruct P as (_ & _ & _ & i & P). rewrite HE in P. tauto.
Qed.

(** An accepted request that asks for no answer gets none unless the handler
    fails. *)
Lemma unasked_silent C E s host id msg rest ctr :
  request_ok (RqProcess id ctr msg false) ->
  s_in s = enc_request (RqProcess id ctr msg false) ++ rest ->
  e_quit E (s_step s) = false -> e_host E = Some host ->
  forall ses hist, known C s host id = Some ses ->
  Forall (fun c => c < 2 ^ 64) hist -> snd (checks new_window hist) = ses_win ses ->
  wf s -> ~ refused_after hist ctr ->
  forall key, new_gcm C (ses_secret ses) = Some key ->
  forall pt, gcm_open C key (x00 :: repeat x00 3 ++ be_enc 8 ctr) msg = Some pt ->
  (forall i, e_handler E i false pt <> HErr) ->
  let '(_, s') := srun C E (conn_body C) s in
  silent s s' /\ exists p, s_calls s' = s_calls s ++ [(p, ctr, false, pt)].
Proof.
  intros H1 H2 H3 H4 ses hist H5 H6 H7 H8 H9 key H10 pt H11 HE.
  pose proof (process_accepted C E s host id msg rest ctr false H1 H2 H3 H4 ses hist H5 H6 H7 H8 H9 key H10 pt H11) as P.
  destruct (srun C E (conn_body C) s) as [res s']. destruct P as (P & _ & _ & i & Q). split; [|exact P].
  specialize (HE i). destruct (e_handler E i false pt); [tauto|congruence|tauto].
Qed.

(** Handshake, then the session on other connections of the same host. *)
Lemma reuse C (L : CryptoLaws C) CE SE chost host csk rnd ssk : undisturbed C CE SE chost host csk rnd ssk ->
  forall cs ss o n (f : bytes -> bytes) l, wf ss -> co_reply o = true -> lenN l < 2 ^ 64 ->
  Forall (fun x => let '(CE', SE', p) := x in c_works CE' /\ writes_all SE' /\ (forall i, e_quit SE' i = false) /\
    e_host SE' = Some chost /\ lenN p + 16 <= 2 ^ 30 /\
    forall i, e_handler SE' i true p = HOk (f p) /\ f p <> [] /\ lenN (f p) + 16 <= 2 ^ 30 /\ lenN (f p) <= n) l ->
  let '(_, ss') := srun C SE (conn_body C) (set_in ss (enc_request (RqSetup (uuid_of rnd) (x_pub C csk)))) in
  exists ses, fst (crun C CE (handshake C (Some host)) (c_set_in cs (sent_by_server ss ss'))) = Some (inr ses) /\
    fst (hops C o ses n l 0 ss') = map (fun x => Some (RdOk (f (snd x)) true)) l /\
    map snd (s_calls (snd (hops C o ses n l 0 ss'))) = map snd (s_calls ss') ++ map snd l.
Proof.
  intros U cs ss o n f l Hwf Ho Hl Hf.
  pose proof (e2e_handshake C CE SE chost host csk rnd ssk L U cs ss Hwf) as H. cbv zeta in H.
  destruct (srun C SE (conn_body C) (set_in ss (enc_request (RqSetup (uuid_of rnd) (x_pub C csk))))) as [r ss'].
  destruct (crun C CE (handshake C (Some host)) (c_set_in cs (sent_by_server ss ss'))) as [h cs'].
  destruct H as (_ & _ & _ & _ & _ & Hwf' & ses & -> & Hid & Hk). exists ses. split; [reflexivity|].
  apply (hops_ok C L o ses n chost f Ho Hid l [] 0 ss' Hwf' Hk (Forall_nil _)); [rewrite N.add_0_l; exact Hl|exact Hf].
Qed.

Lemma overtaken_answers n : (64 <= n)%nat -> N.of_nat n + 2 < 2 ^ 64 ->
  fst (checks new_window (from 2 n ++ [1])) = repeat true n ++ [false].
Proof.
  intros Hn Hb. assert (Hf : Forall (fun c => c < 2 ^ 64) (from 2 n)) by (apply Forall_forall; intros c Hc; apply from_in in Hc; lia).
  assert (Hi : fst (checks new_window (from 2 n)) = repeat true n).
  { rewrite increasing_accepted; [|apply from_increasing; lia|exact Hf]. f_equal. clear. generalize 2. induction n; intros a; cbn; auto. }
  pose proof (next_answer (from 2 n) 1 Hf eq_refl) as Ha. rewrite checks_app. pose proof (overtaken_refused n Hn Hb) as Hr.
  unfold refused_after in Hr. destruct (checks new_window (from 2 n)) as [rs w] eqn:Ec. cbn [fst] in *. cbv zeta in Hr, Ha.
  cbn [checks fst snd]. destruct (check_and_update w 1) as [b w'] eqn:E. cbn [fst] in Ha |- *. rewrite Hi.
  destruct b; [exfalso|reflexivity]. destruct Ha as [[Ha _] _]. specialize (Ha eq_refl). destruct Ha as (_ & N1 & N2).
  destruct Hr as [Hr|[Hr|Hr]]; [discriminate|contradiction|lia].
Qed.
Lemma overtaken_and_refused C W cl1 cl2 p1 p2 key n : w_session W cl1 = w_session W cl2 ->
  client_gcm C (cs_secret (w_secret W (w_session W cl1))) = Some key -> (64 <= n)%nat -> N.of_nat n + 2 < 2 ^ 64 ->
  exists k, kreachable C W k /\
    handed k = map (req_of C W cl2 key p2) (from 2 n) ++ [req_of C W cl1 key p1 1] /\
    fst (checks new_window (from 2 n ++ [1])) = repeat true n ++ [false].
Proof.
  intros Hs K Hn Hb. destruct (overtaken C W cl1 cl2 p1 p2 key n Hs K) as (k & R & H); [change two64 with (2 ^ 64); lia|].
  exists k. split; [exact R|]. split; [exact H|]. apply overtaken_answers; [exact Hn|exact Hb].
Qed.
