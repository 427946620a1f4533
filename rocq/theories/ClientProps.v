From Verif Require Import Bytes BytesProofs Parser ParserProofs Crypto Kdf Wire SpecLayout WireProofs WireSeq WireExtra
  Server ServerSeq ServerProps ServerProps2 Keys KeysProofs Client ClientSeq SpecClient ClientProofs SpecE2E E2EProofs.

(** ** Transcript *)
Lemma be4_inj a b : a < two32 -> b < two32 -> be_enc 4 a = be_enc 4 b -> a = b.
Proof. intros Ha Hb H. rewrite <- (be_dec_enc_small 4 a Ha), H. apply be_dec_enc_small, Hb. Qed.
Lemma field_inj (a a' t t' : bytes) : lenN a < two32 -> lenN a' < two32 ->
  be_enc 4 (lenN a) ++ a ++ t = be_enc 4 (lenN a') ++ a' ++ t' -> a = a' /\ t = t'.
Proof.
  intros Ha Ha' H. apply app_inj_len in H as [H1 H2]; [|rewrite !be_enc_length; reflexivity].
  apply be4_inj in H1; try assumption. apply app_inj_len in H2 as [-> ->]; [auto|unfold lenN in H1; lia].
Qed.
Lemma doc_transcript_flat a b id : lenN a < two32 -> lenN b < two32 ->
  doc_transcript a b id = be_enc 4 (lenN a) ++ a ++ be_enc 4 (lenN b) ++ b ++ id.
Proof.
  intros Ha Hb. unfold doc_transcript. rewrite !octets_cons, octets_nil. cbn [field_octets].
  rewrite !octet_of_be, app_nil_r. reflexivity.
Qed.
Lemma transcript_inj a b id a' b' id' :
  lenN a < 2 ^ 32 -> lenN b < 2 ^ 32 -> lenN a' < 2 ^ 32 -> lenN b' < 2 ^ 32 ->
  doc_transcript a b id = doc_transcript a' b' id' -> a = a' /\ b = b' /\ id = id'.
Proof.
  intros Ha Hb Ha' Hb' H. rewrite !doc_transcript_flat in H by assumption.
  apply field_inj in H as [-> H]; try assumption. apply field_inj in H as [-> ->]; auto.
Qed.
Lemma transcript_len32 k : length k = 32%nat -> lenN (pkix_x25519 k) < two32.
Proof. intros H. unfold pkix_x25519, lenN. rewrite app_length, H. reflexivity. Qed.
Lemma setup_transcript_inj a b id a' b' id' :
  length a = 32%nat -> length b = 32%nat -> length a' = 32%nat -> length b' = 32%nat ->
  setup_transcript a b id = setup_transcript a' b' id' -> a = a' /\ b = b' /\ id = id'.
Proof.
  intros Ha Hb Ha' Hb' H. rewrite !layout_transcript in H.
  apply transcript_inj in H as (H1 & H2 & ->); try (apply transcript_len32; assumption).
  apply app_inv_head in H1, H2. auto.
Qed.

(** ** Acceptance *)
Lemma handshake_accepts C E host s ses s' :
  crun C E (handshake C host) s = (Some (inr ses), s') ->
  exists h pk rnd sk spub hb hs sig o, host = Some h /\
    ce_fetch E h = Some pk /\ ce_rand E = Some rnd /\ ce_gen E = Some sk /\ cs_id ses = uuid_of rnd /\
    (let q := enc_request (RqSetup (cs_id ses) (x_pub C sk)) in c_sent s' = c_sent s ++ [(q, lenN q)]) /\
    c_in s = o ++ c_in s' /\ setup_response_octets C o spub hb sig /\ hash_octet hb hs /\
    good_signature C pk hs (doc_transcript (pkix_x25519 (x_pub C sk)) (pkix_x25519 spub) (cs_id ses)) sig /\
    x_dh C sk spub = Some (cs_secret ses).
Proof.
  intros H. apply handshake_cases in H as [(e & H)|(h & pk & rnd & sk & spub & hb & sig & -> & X & H)]; [discriminate|].
  destruct H as [[_ H]|(hs & Hh & [[_ H]|(sec & V & D & H)])]; try discriminate. injection H as ->. cbn [cs_id cs_secret].
  destruct X as [X1 X2 X3 X4 (o & X5 & X6) _].
  exists h, pk, rnd, sk, spub, hb, hs, sig, o. repeat split; try assumption.
  - apply crypto_hash_octet, Hh.
  - rewrite <- layout_transcript. eapply verify_good; [exact Hh|exact V].
Qed.

(** ** Panics *)
Lemma crypto_hash_none h : h < 256 -> (h <> 2 /\ h <> 3 /\ h <> 4) -> crypto_hash h = None.
Proof.
  intros _ (H2 & H3 & H4). unfold crypto_hash.
  apply N.eqb_neq in H2, H3, H4. rewrite H2, H3, H4. reflexivity.
Qed.
Lemma handshake_panics C E host s pk rnd sk spub sig rest h :
  c_works E -> ce_fetch E host = Some pk -> ce_rand E = Some rnd -> ce_gen E = Some sk ->
  response_ok (RsSetup spub h sig) -> c_in s = enc_response (RsSetup spub h sig) ++ rest ->
  h <> 2 /\ h <> 3 /\ h <> 4 ->
  fst (crun C E (handshake C (Some host)) s) = None.
Proof.
  intros W Ef Er Eg Hok Hin Hh. unfold handshake.
  rewrite crun_do. cbn [cexec fst snd]. rewrite Ef. rewrite crun_do. cbn [cexec fst snd]. rewrite Er. cbv zeta.
  rewrite crun_do. cbn [cexec fst snd]. rewrite Eg.
  set (q := enc_setup_req (new_setup_request (uuid_of rnd) (x_pub C sk))).
  rewrite crun_do. cbn [cexec]. pose proof (proj1 W (c_step s) q) as [W1 W2].
  destruct (ce_write E (c_step s) q) as [n er]. cbn [fst snd] in W1, W2. subst er. cbv zeta. cbn [fst snd].
  rewrite N.min_r by exact W1. rewrite N.eqb_refl. cbn [negb].
  set (s1 := c_add_sent (c_tick s) q (lenN q)).
  rewrite crun_bind, crun_lift. change (c_in s1) with (c_in s). rewrite Hin.
  pose proof (read_response_rt C action_setup (RsSetup spub h sig) rest (ce_end E) Hok eq_refl) as RT.
  unfold read_response in RT. rewrite run_bind in RT.
  destruct (run parse_resp_common _ _) as [[e|rc] i1] eqn:E1; [discriminate|]. cbn [fst snd].
  destruct (rs_success rc); cbn [negb] in RT |- *.
  2:{ rewrite run_bind in RT. destruct (run _ i1 _) as [[e|er] i2]; discriminate. }
  change (action_setup =? action_hello) with false in RT. change (action_setup =? action_setup) with true in RT.
  cbv iota in RT. rewrite run_bind in RT. rewrite crun_bind, crun_lift. cbn [c_in c_set_in].
  destruct (run (parse_setup_resp C rc) i1 (ce_end E)) as [[e|ss] i2] eqn:E2; [discriminate|]. cbn [fst snd run] in RT |- *.
  assert (ss_hash ss = h) as -> by congruence.
  rewrite crypto_hash_none; [reflexivity| |exact Hh]. apply Hok.
Qed.
Lemma handshake_panic_causes C E host s s' : crun C E (handshake C host) s = (None, s') ->
  exists h pk o spub hb sig, host = Some h /\ ce_fetch E h = Some pk /\
    c_in s = o ++ c_in s' /\ setup_response_octets C o spub hb sig /\
    ((forall hs, ~ hash_octet hb hs) \/
     pk = PkNilRSA \/ pk = PkNilECDSA \/ pk = PkNilEd25519 \/ exists k, pk = PkEd25519 k /\ length k <> 32%nat).
Proof.
  intros H. apply handshake_cases in H as [(e & H)|(h & pk & rnd & sk & spub & hb & sig & -> & X & H)]; [discriminate|].
  destruct X as [X1 X2 X3 X4 (o & X5 & X6) _]. exists h, pk, o, spub, hb, sig. repeat (split; [assumption || reflexivity|]).
  destruct H as [[Hn _]|(hs & Hh & [[V _]|(sec & _ & _ & H)])]; [| |discriminate].
  - left. intros hs Hx. apply crypto_hash_octet in Hx. congruence.
  - right. unfold verify_signature in V. destruct (digest _ _ _); [|discriminate].
    destruct pk; try discriminate; auto. destruct (Nat.eqb_spec (length k) 32); [discriminate|]. right; right; right. eauto.
Qed.

(** ** Empty, repeated and late replies *)
Lemma empty_reply C (L : CryptoLaws C) E o ses n s oc rest key :
  c_works E -> c_buf s = [] -> c_in s = oc ++ rest -> client_gcm C (cs_secret ses) = Some key ->
  process_response_octets oc (c_last s) (gcm_seal C key (gcm_nonce dir_s2c (c_last s)) []) ->
  fst (crun C E (client_read C o ses n) s) = Some (if n =? 0 then RdOk [] true else RdErr RdBuffer).
Proof.
  intros W Hb Hin K Ho.
  destruct (read_fresh_run C E o ses n s oc rest _ _ key W Hb Hin Ho K) as (r & s1 & -> & _ & _ & B).
  rewrite N.eqb_refl, (gcm_open_seal _ L) in B. destruct B as [-> _]. reflexivity.
Qed.
Lemma takeN_whole {A} n (l : list A) : lenN l <= n -> takeN n l = l.
Proof. intros H. unfold takeN. apply N.leb_le in H. rewrite H. reflexivity. Qed.
Lemma dropN_whole {A} n (l : list A) : lenN l <= n -> dropN n l = [].
Proof. intros H. unfold dropN. apply N.leb_le in H. rewrite H. reflexivity. Qed.
Lemma repeated_reply C (L : CryptoLaws C) E o ses n s oc rest key m :
  c_works E -> c_buf s = [] -> c_in s = oc ++ oc ++ rest -> client_gcm C (cs_secret ses) = Some key ->
  process_response_octets oc (c_last s) (gcm_seal C key (gcm_nonce dir_s2c (c_last s)) m) ->
  m <> [] -> lenN m <= n ->
  fst (reads C E o ses [n; n] s) = [Some (RdOk m true); Some (RdOk m true)].
Proof.
  intros W Hb Hin K Ho Hm Hn.
  destruct (read_fresh_run C E o ses n s oc (oc ++ rest) _ _ key W Hb Hin Ho K) as (r & s1 & R1 & I1 & (_ & _ & W1 & _) & B1).
  rewrite N.eqb_refl, (gcm_open_seal _ L) in B1. destruct m as [|x m]; [congruence|]. destruct B1 as [-> B1].
  rewrite takeN_whole in R1 by exact Hn. rewrite dropN_whole in B1 by exact Hn.
  rewrite <- W1 in Ho.
  destruct (read_fresh_run C E o ses n s1 oc rest _ _ key W B1 I1 Ho K) as (r & s2 & R2 & _ & _ & B2).
  rewrite N.eqb_refl, (gcm_open_seal _ L) in B2. destruct B2 as [-> _].
  rewrite takeN_whole in R2 by exact Hn. apply N.leb_le in Hn. rewrite Hn in *.
  cbn [reads]. rewrite R1, R2. reflexivity.
Qed.
Lemma stale_reply C (L : CryptoLaws C) E o ses n s oc rest c ct :
  c_works E -> c_buf s = [] -> c_in s = oc ++ rest -> process_response_octets oc c ct -> c <> c_last s ->
  let '(r, s') := crun C E (client_read C o ses n) s in
  r = Some (RdErr RdCounter) /\ c_in s' = rest /\ c_buf s' = [].
Proof.
  intros W Hb Hin Ho Hc. destruct (client_gcm_some C L (cs_secret ses)) as (key & K).
  destruct (read_fresh_run C E o ses n s oc rest c ct key W Hb Hin Ho K) as (r & s1 & -> & I & _ & B).
  apply N.eqb_neq in Hc. rewrite Hc in B. destruct B as [-> B]. auto.
Qed.

(** ** Exhaustion *)
Lemma writes_app C E o ses a : forall b s,
  writes C E o ses (a ++ b) s =
  let '(ra, s1) := writes C E o ses a s in let '(rb, s2) := writes C E o ses b s1 in (ra ++ rb, s2).
Proof.
  induction a as [|p a IH]; intros b s; cbn [writes app].
  - destruct (writes C E o ses b s); reflexivity.
  - destruct (crun C E (client_write C o ses p) s) as [r s1]. rewrite IH.
    destruct (writes C E o ses a s1) as [ra s2], (writes C E o ses b s2) as [rb s3]. reflexivity.
Qed.
Lemma writes_ctr C (L : CryptoLaws C) E o ses : c_works E -> forall ps s, c_ctr s < two64 ->
  exists rs s', writes C E o ses ps s = (rs, s') /\ c_ctr s' = (c_ctr s + lenN ps) mod two64 /\
    exists l, c_seals s' = c_seals s ++ l.
Proof.
  intros W. destruct (client_gcm_some C L (cs_secret ses)) as (key & K).
  induction ps as [|p ps IH]; intros s Hs; cbn [writes].
  - exists [], s. split; [reflexivity|]. split; [change (lenN []) with 0; rewrite N.add_0_r, N.mod_small by exact Hs; reflexivity|].
    exists []. rewrite app_nil_r. reflexivity.
  - pose proof (write_ok_run C L E o ses p s key W K) as R. destruct (crun C E (client_write C o ses p) s) as [r s1].
    cbv zeta in R. destruct R as (Rc & _ & _ & Rs).
    assert (H1 : c_ctr s1 < two64) by (rewrite Rc; apply N.mod_lt; discriminate).
    destruct (IH s1 H1) as (rs & s2 & -> & Hc & (l & Hl)).
    exists (r :: rs), s2. split; [reflexivity|]. split.
    + rewrite Hc, Rc, lenN_cons, N.add_mod_idemp_l, N.add_assoc by discriminate. reflexivity.
    + destruct Rs as [(_ & _ & _ & Rs & _)|(_ & _ & Rs & _)]; rewrite Hl, Rs; [eauto|].
      rewrite <- app_assoc. eauto.
Qed.
Lemma nonce_reused C (L : CryptoLaws C) E o ses p0 ps pe p2 s key :
  c_works E -> client_gcm C (cs_secret ses) = Some key -> c_ctr s = 0 -> 1 + lenN ps = 2 ^ 64 - 1 ->
  exists rs l n s', writes C E o ses (p0 :: ps ++ [pe; p2]) s = (rs ++ [Some WrExhausted; Some (WrConn n false)], s') /\
    let nonce := gcm_nonce dir_c2s 1 in
    c_seals s' = c_seals s ++ (1, key, nonce, p0) :: l ++ [(1, key, nonce, p2)].
Proof.
  intros W K H0 Hn. cbn [writes].
  pose proof (write_ok_run C L E o ses p0 s key W K) as R. destruct (crun C E (client_write C o ses p0) s) as [r s1].
  rewrite H0 in R. change ((0 + 1) mod two64) with 1 in R. cbv zeta in R.
  destruct R as (Rc & _ & _ & [(R & _)|(_ & _ & Rs & _)]); [discriminate|].
  rewrite writes_app. destruct (writes_ctr C L E o ses W ps s1) as (rs & s2 & -> & Hc & (l & Hl)).
  { rewrite Rc. reflexivity. }
  rewrite Rc, Hn in Hc. change ((2 ^ 64 - 1) mod two64) with (2 ^ 64 - 1) in Hc. cbn [writes].
  pose proof (write_ok_run C L E o ses pe s2 key W K) as R3. destruct (crun C E (client_write C o ses pe) s2) as [r3 s3].
  rewrite Hc in R3. change ((2 ^ 64 - 1 + 1) mod two64) with 0 in R3. cbv zeta in R3.
  destruct R3 as (Rc3 & _ & _ & [(_ & -> & _ & Rs3 & _)|(R3 & _)]); [|congruence].
  pose proof (write_ok_run C L E o ses p2 s3 key W K) as R4. destruct (crun C E (client_write C o ses p2) s3) as [r4 s4].
  rewrite Rc3 in R4. change ((0 + 1) mod two64) with 1 in R4. cbv zeta in R4.
  destruct R4 as (Rc4 & _ & _ & [(R4 & _)|(_ & _ & Rs4 & -> & _)]); [discriminate|].
  exists (r :: rs), l. do 2 eexists. split; [reflexivity|]. rewrite Rs4, Rs3, Hl, Rs, <- !app_assoc. reflexivity.
Qed.

(** A Write that is not the one at which the counter wraps. *)
Lemma write_reports C (L : CryptoLaws C) E o ses p s : c_works E -> length (cs_id ses) = 16%nat -> (c_ctr s + 1) mod two64 <> 0 ->
  fst (crun C E (client_write C o ses p) s) = Some (WrConn (lenN p + 50) false).
Proof.
  intros W Hid Hn. destruct (client_gcm_some C L (cs_secret ses)) as (key & K).
  pose proof (write_ok_run C L E o ses p s key W K) as R. pose proof (write_len C L E o ses p s W Hid) as WL.
  destruct (crun C E (client_write C o ses p) s) as [r s']. cbv zeta in R.
  destruct R as (_ & _ & _ & [(X & _)|(_ & _ & _ & -> & _)]); [contradiction|].
  destruct (WL _ _ _ eq_refl) as [-> _]. reflexivity.
Qed.
