From Verif Require Import Bytes BytesProofs Parser ParserProofs Crypto Kdf Wire WireProofs WireSeq WireExtra
  Server ServerSeq ServerProps ServerProps2 Keys Client ClientSeq SpecClient.

Lemma crun_bind {A B} C E (p : cprog A) (f : A -> cprog B) s :
  crun C E (cbind p f) s =
  match crun C E p s with
  | (Some a, s') => crun C E (f a) s'
  | (None, s') => (None, s')
  end.
Proof.
  revert s; induction p as [a| |R e k IH]; intros s; cbn [cbind crun]; [reflexivity..|].
  destruct (cexec C E e s) as [r s']. apply IH.
Qed.
Lemma c_set_in_id s : c_set_in s (c_in s) = s.
Proof. destruct s; reflexivity. Qed.
Lemma crun_lift {A} C E (p : parser A) s :
  crun C E (clift p) s =
  (Some (fst (run p (c_in s) (ce_end E))), c_set_in s (snd (run p (c_in s) (ce_end E)))).
Proof.
  revert s; induction p as [a|er|n k IH|n k IH|n k IH]; intros s; cbn [clift crun run cexec].
  - cbn. rewrite c_set_in_id. reflexivity.
  - cbn. rewrite c_set_in_id. reflexivity.
  - destruct (fl_read n (c_in s) (ce_end E)) as [r i]. rewrite IH. reflexivity.
  - destruct (fl_copy n (c_in s) (ce_end E)) as [r i]. rewrite IH. reflexivity.
  - apply IH.
Qed.
Lemma crun_do {R A} C E (e : ceff R) (k : R -> cprog A) s :
  crun C E (cbind (cdo e) k) s = crun C E (k (fst (cexec C E e s))) (snd (cexec C E e s)).
Proof. cbn. destruct (cexec C E e s); reflexivity. Qed.

(** ** The key *)
Lemma client_server_gcm C secret : client_gcm C secret = new_gcm C secret.
Proof. reflexivity. Qed.
Lemma client_gcm_some C (L : CryptoLaws C) secret : exists key, client_gcm C secret = Some key.
Proof. destruct (new_gcm_total C L secret) as (k & H & _). rewrite client_server_gcm. eauto. Qed.

(** ** Reading one field *)
Lemma fl_read_inr n s e b s' : fl_read n s e = (inr b, s') -> s = b ++ s' /\ lenN b = n.
Proof.
  unfold fl_read. destruct (N.leb_spec n (lenN s)) as [H|H]; intros [= <- <-].
  split; [symmetry; apply takeN_dropN|]. rewrite takeN_len. lia.
Qed.
Lemma fl_copy1 s e b s' : fl_copy 1 s e = (([b], None), s') -> s = b :: s'.
Proof.
  unfold fl_copy. destruct (N.leb_spec 1 (lenN s)) as [H|H]; intros [= H1 H2].
  - rewrite <- H2. rewrite <- (takeN_dropN 1 s) at 1. rewrite H1. reflexivity.
  - destruct s; [discriminate|]. rewrite lenN_cons in H. lia.
Qed.

Lemma run_pread {B} n (f : bytes -> parser B) s e b s' : run (pbind (pread n) f) s e = (inr b, s') ->
  exists x s1, s = x ++ s1 /\ lenN x = n /\ run (f x) s1 e = (inr b, s').
Proof.
  unfold pread. cbn [pbind run]. destruct (fl_read n s e) as [[er|x] s1] eqn:F; cbn [pbind run]; [discriminate|].
  intros H. apply fl_read_inr in F as [-> F]. eauto.
Qed.
Lemma run_pcopy {B} (f : byte -> parser B) s e b s' : run (pbind pcopy1 f) s e = (inr b, s') ->
  exists x s1, s = x :: s1 /\ run (f x) s1 e = (inr b, s').
Proof.
  unfold pcopy1. cbn [pbind run]. destruct (fl_copy 1 s e) as [[d er] s1] eqn:F.
  destruct er; [discriminate|]. destruct d as [|x [|y d]]; try discriminate.
  cbn [pbind run]. intros H. apply fl_copy1 in F. eauto.
Qed.
Lemma enc_dec (b : bytes) n : lenN b = N.of_nat n -> be_enc n (be_dec b) = b.
Proof. intros H. apply be_enc_dec_len. unfold lenN in H. lia. Qed.

Lemma resp_bit (b0 : byte) : (N.shiftr (b2n b0) 7 =? 1) = (128 <=? b2n b0).
Proof. destruct b0; reflexivity. Qed.
Lemma inv_resp_common s e rc s' : run parse_resp_common s e = (inr rc, s') ->
  exists b0, s = b0 :: s' /\ rs_success rc = (128 <=? b2n b0).
Proof.
  unfold parse_resp_common. intros H. apply run_pcopy in H as (b0 & s1 & -> & H). cbn in H.
  injection H as <- <-. exists b0. split; [reflexivity|]. apply resp_bit.
Qed.
Lemma inv_setup_resp C rc s e m s' : run (parse_setup_resp C rc) s e = (inr m, s') ->
  exists raw hb, s = be_enc 4 (lenN raw) ++ raw ++ [hb] ++ be_enc 4 (lenN (ss_sig m)) ++ ss_sig m ++ s' /\
    pkix_parse C raw = Some (PkX25519 (ss_pub m)) /\ ss_hash m = b2n hb /\ lenN (ss_sig m) < two32.
Proof.
  unfold parse_setup_resp. intros H. apply run_pread in H as (sz & s1 & -> & Hsz & H).
  destruct (max_key_size <? be_dec sz); [discriminate|]. unfold palloc in H. cbn [pbind run] in H.
  apply run_pread in H as (raw & s2 & -> & Hraw & H). unfold parse_ecdh in H.
  destruct (pkix_parse C raw) as [[k| | | | | | |]|] eqn:Ek; cbn [pbind run] in H; try discriminate.
  apply run_pread in H as (h & s3 & -> & Hh & H). apply run_pread in H as (ssz & s4 & -> & Hssz & H).
  destruct (max_signature_size <? be_dec ssz) eqn:Hmax; [discriminate|]. cbn [pbind run] in H.
  apply run_pread in H as (sig & s5 & -> & Hsig & H). cbn in H. injection H as <- <-. cbn [ss_sig ss_pub ss_hash].
  destruct h as [|hb [|? ?]]; try discriminate Hh.
  - exists raw, hb. rewrite Hraw, Hsig. rewrite (enc_dec sz 4) by exact Hsz. rewrite (enc_dec ssz 4) by exact Hssz.
    split; [reflexivity|]. split; [exact Ek|]. split.
    + unfold be_dec. cbn. lia.
    + apply N.ltb_ge in Hmax. apply max_sig_lt32, Hmax.
  - rewrite !lenN_cons in Hh. lia.
Qed.
Lemma inv_process_resp rc s e m s' : run (parse_process_resp rc) s e = (inr m, s') ->
  s = be_enc 8 (ps_counter m) ++ be_enc 8 (lenN (ps_msg m)) ++ ps_msg m ++ s' /\
  ps_counter m < two64 /\ lenN (ps_msg m) <= max_message_size.
Proof.
  unfold parse_process_resp. intros H. apply run_pread in H as (cb & s1 & -> & Hcb & H).
  apply run_pread in H as (sz & s2 & -> & Hsz & H).
  destruct (max_message_size <? be_dec sz) eqn:Hmax; [discriminate|]. unfold palloc in H. cbn [pbind run] in H.
  apply run_pread in H as (msg & s3 & -> & Hm & H). cbn in H. injection H as <- <-. cbn [ps_counter ps_msg].
  rewrite Hm, (enc_dec cb 8), (enc_dec sz 8) by assumption. split; [reflexivity|].
  split; [exact (be_dec_lt_len cb 8 Hcb)|]. apply N.ltb_ge, Hmax.
Qed.

(** ** Handshake *)
Lemma pkix_x_len C (L : CryptoLaws C) raw k : pkix_parse C raw = Some (PkX25519 k) -> length k = 32%nat.
Proof.
  unfold pkix_parse. destruct (length raw =? 44)%nat eqn:E; cbn [andb].
  - destruct (bytes_eqb _ _).
    + intros H. assert (k = skipn 12 raw) as -> by congruence. apply Nat.eqb_eq in E. rewrite skipn_length. lia.
    + apply (pkix_other_len _ L).
  - apply (pkix_other_len _ L).
Qed.
Lemma crypto_hash_octet (hb : byte) h : crypto_hash (b2n hb) = Some h <-> hash_octet hb h.
Proof.
  unfold hash_octet. split.
  - destruct hb; cbn; intros H; inversion H; auto.
  - intros [[-> ->]|[[-> ->]|[-> ->]]]; reflexivity.
Qed.
Lemma verify_good C pk h content sig hb : crypto_hash hb = Some h ->
  verify_signature C pk h content sig = VOk true <-> good_signature C pk h content sig.
Proof.
  intros Hh. assert (D : digest C h content = Some
    (match h with SHA256 => sha256 C content | SHA384 => sha384 C content | _ => sha512 C content end)).
  { unfold crypto_hash in Hh. destruct (hb =? 2); [injection Hh as <-; reflexivity|].
    destruct (hb =? 3); [injection Hh as <-; reflexivity|].
    destruct (hb =? 4); [injection Hh as <-; reflexivity|discriminate]. }
  unfold verify_signature, good_signature. rewrite D. cbv zeta.
  destruct pk as [k|n e|c x y|k| | | |]; split; intros H; try discriminate H; try contradiction; try congruence.
  - destruct (Nat.eqb_spec (length k) 32); [|discriminate]. injection H as H. auto.
  - destruct H as [H1 H2]. rewrite H1. cbn [Nat.eqb]. congruence.
Qed.

(** What a completed exchange looked like, from the client. *)
Record exchanged (C : Crypto) (E : cenv) (host : bytes) (s s' : cst) (pk : pubkey) (rnd sk spub : bytes) (hb : byte) (sig : bytes) : Prop := {
  ex_fetch : ce_fetch E host = Some pk;
  ex_rand : ce_rand E = Some rnd;
  ex_gen : ce_gen E = Some sk;
  ex_sent : let q := enc_request (RqSetup (uuid_of rnd) (x_pub C sk)) in c_sent s' = c_sent s ++ [(q, lenN q)];
  ex_resp : exists o, c_in s = o ++ c_in s' /\ setup_response_octets C o spub hb sig;
  ex_rest : c_ctr s' = c_ctr s /\ c_last s' = c_last s /\ c_buf s' = c_buf s /\ c_seals s' = c_seals s }.

Definition hs_transcript C sk spub rnd := setup_transcript (x_pub C sk) spub (uuid_of rnd).

Lemma handshake_cases C E host s r s' : crun C E (handshake C host) s = (r, s') ->
  (exists e, r = Some (inl e)) \/
  exists h pk rnd sk spub hb sig, host = Some h /\ exchanged C E h s s' pk rnd sk spub hb sig /\
    ((crypto_hash (b2n hb) = None /\ r = None) \/
     exists hs, crypto_hash (b2n hb) = Some hs /\
       ((verify_signature C pk hs (hs_transcript C sk spub rnd) sig = VPanic /\ r = None) \/
        exists secret, verify_signature C pk hs (hs_transcript C sk spub rnd) sig = VOk true /\
          x_dh C sk spub = Some secret /\ r = Some (inr {| cs_secret := secret; cs_id := uuid_of rnd |}))).
Proof.
  unfold handshake. destruct host as [host|]; [|intros [= <- <-]; left; eauto].
  rewrite crun_do. cbn [cexec fst snd]. destruct (ce_fetch E host) as [pk|] eqn:Ef; [|intros [= <- <-]; left; eauto].
  rewrite crun_do. cbn [cexec fst snd]. destruct (ce_rand E) as [rnd|] eqn:Er; [|intros [= <- <-]; left; eauto].
  cbv zeta. rewrite crun_do. cbn [cexec fst snd]. destruct (ce_gen E) as [sk|] eqn:Eg; [|intros [= <- <-]; left; eauto].
  set (q := enc_setup_req (new_setup_request (uuid_of rnd) (x_pub C sk))).
  rewrite crun_do. cbn [cexec]. destruct (ce_write E (c_step s) q) as [n er] eqn:Ew. cbv zeta. cbn [fst snd].
  destruct er; [intros [= <- <-]; left; eauto|].
  destruct (N.eqb_spec (N.min n (lenN q)) (lenN q)) as [Hn|Hn]; cbn [negb]; [|intros [= <- <-]; left; eauto].
  set (s1 := c_add_sent (c_tick s) q (N.min n (lenN q))).
  rewrite crun_bind, crun_lift. destruct (run parse_resp_common (c_in s1) (ce_end E)) as [[e|rc] i1] eqn:E1; cbn [fst snd];
    [intros [= <- <-]; left; eauto|].
  destruct (rs_success rc) eqn:Es; cbn [negb].
  2:{ rewrite crun_bind, crun_lift. destruct (run (parse_error_resp rc) (c_in (c_set_in s1 i1)) (ce_end E)) as [[e|er] i2]; cbn [fst snd crun]; intros H; injection H as <- H; left; eauto. }
  rewrite crun_bind, crun_lift.
  destruct (run (parse_setup_resp C rc) (c_in (c_set_in s1 i1)) (ce_end E)) as [[e|ss] i2] eqn:E2; cbn [fst snd];
    [intros [= <- <-]; left; eauto|].
  apply inv_resp_common in E1 as (b0 & E1 & Eb). apply inv_setup_resp in E2 as (raw & hb & E2 & Ek & Ehb & Esig).
  rewrite Es in Eb. symmetry in Eb. apply N.leb_le in Eb.
  assert (X : exchanged C E host s (c_set_in (c_set_in s1 i1) i2) pk rnd sk (ss_pub ss) hb (ss_sig ss)).
  { split; try assumption.
    - cbn [c_set_in s1 c_add_sent c_tick c_sent enc_request]. cbv zeta. fold q. rewrite Hn. reflexivity.
    - exists (b0 :: be_enc 4 (lenN raw) ++ raw ++ [hb] ++ be_enc 4 (lenN (ss_sig ss)) ++ ss_sig ss).
      cbn [c_in c_set_in]. split.
      + change (c_in s1) with (c_in s) in E1. rewrite E1. cbn [c_in c_set_in] in E2. rewrite E2.
        cbn [app]. rewrite <- !app_assoc. cbn [app]. rewrite <- !app_assoc. reflexivity.
      + exists b0, raw. auto.
    - auto. }
  rewrite Ehb.
  destruct (crypto_hash (b2n hb)) as [hs|] eqn:Eh.
  2:{ intros [= <- <-]. right. exists host, pk, rnd, sk, (ss_pub ss), hb, (ss_sig ss). auto. }
  destruct (verify_signature C pk hs _ (ss_sig ss)) as [[]| |] eqn:Ev; try (intros [= <- <-]; left; eauto; fail).
  - destruct (x_dh C sk (ss_pub ss)) as [secret|] eqn:Ed; [|intros [= <- <-]; left; eauto].
    intros [= <- <-]. right. exists host, pk, rnd, sk, (ss_pub ss), hb, (ss_sig ss). split; [reflexivity|].
    split; [exact X|]. right. exists hs. split; [exact Eh|]. right. exists secret. auto.
  - intros [= <- <-]. right. exists host, pk, rnd, sk, (ss_pub ss), hb, (ss_sig ss). split; [reflexivity|].
    split; [exact X|]. right. exists hs. auto.
Qed.

(** ** Write *)
Lemma deadline_ok C E (w : c_works E) (b : bool) {A} (f : bool -> cprog A) s :
  exists s1, crun C E (cbind (if b then cdo CDeadline else CRet true) f) s = crun C E (f true) s1 /\
    c_in s1 = c_in s /\ c_sent s1 = c_sent s /\ c_ctr s1 = c_ctr s /\ c_last s1 = c_last s /\
    c_buf s1 = c_buf s /\ c_seals s1 = c_seals s.
Proof.
  destruct b.
  - exists (c_tick s). rewrite crun_do. cbn [cexec fst snd]. destruct w as [_ ->]. auto 8.
  - exists s. auto 8.
Qed.

Lemma write_ok_run C (L : CryptoLaws C) E o ses p s key : c_works E -> client_gcm C (cs_secret ses) = Some key ->
  let c := (c_ctr s + 1) mod two64 in
  let '(r, s') := crun C E (client_write C o ses p) s in
  c_ctr s' = c /\ c_in s' = c_in s /\ c_buf s' = c_buf s /\
  ((c = 0 /\ r = Some WrExhausted /\ c_last s' = c_last s /\ c_seals s' = c_seals s /\ c_sent s' = c_sent s) \/
   (c <> 0 /\ c_last s' = c /\ c_seals s' = c_seals s ++ [(c, key, gcm_nonce dir_c2s c, p)] /\
    let q := enc_request (RqProcess (cs_id ses) c (gcm_seal C key (gcm_nonce dir_c2s c) p) (co_reply o)) in
    r = Some (WrConn (lenN q) false) /\ c_sent s' = c_sent s ++ [(q, lenN q)])).
Proof.
  intros W K. cbv zeta. unfold client_write.
  destruct (deadline_ok C E W (co_wto o) (fun ok => if negb ok then CRet WrDeadline else
    match client_gcm C (cs_secret ses) with
    | None => CRet WrKey
    | Some key =>
        doc c <- cdo CAdd;
        if c =? 0 then CRet WrExhausted
        else
          doc _ <- cdo (CSetLast c);
          doc ct <- cdo (CSeal c key (gcm_nonce dir_c2s c) p);
          doc w <- cdo (CWrite (enc_process_req (new_process_request (cs_id ses) c ct (co_reply o))));
          CRet (WrConn (fst w) (snd w))
    end) s) as (s1 & R & Hi & Hs & Hc & Hl & Hb & Hse).
  rewrite R. clear R. cbn [negb]. rewrite K, crun_do. cbn [cexec]. cbv zeta. cbn [fst snd]. rewrite Hc.
  set (c := (c_ctr s + 1) mod two64). destruct (N.eqb_spec c 0) as [E0|E0].
  - cbn [crun]. cbn [c_set_ctr c_ctr c_in c_buf c_last c_seals c_sent]. repeat split; try assumption. left.
    auto.
  - rewrite crun_do. cbn [cexec fst snd]. rewrite crun_do. cbn [cexec fst snd]. rewrite crun_do. cbn [cexec].
    set (q := enc_process_req _). destruct (ce_write E _ q) as [n er] eqn:Ew. cbv zeta. cbn [fst snd crun].
    pose proof (proj1 W (c_step (c_add_seal (c_set_last (c_set_ctr s1 c) c) (c, key, gcm_nonce dir_c2s c, p))) q) as [W1 W2].
    rewrite Ew in W1, W2. cbn [fst snd] in W1, W2. subst er. rewrite N.min_r by exact W1.
    cbn [c_add_sent c_tick c_add_seal c_set_last c_set_ctr c_ctr c_in c_buf c_last c_seals c_sent].
    rewrite Hse, Hs. repeat split; try assumption. right. split; [exact E0|]. split; [reflexivity|]. split; [reflexivity|].
    split; reflexivity.
Qed.

Lemma write_len C (L : CryptoLaws C) E o ses p s : c_works E -> length (cs_id ses) = 16%nat ->
  forall n err s', crun C E (client_write C o ses p) s = (Some (WrConn n err), s') -> n = lenN p + 50 /\ err = false.
Proof.
  intros W Hid n err s' H. destruct (client_gcm_some C L (cs_secret ses)) as (key & K).
  pose proof (write_ok_run C L E o ses p s key W K) as R. rewrite H in R. cbv zeta in R.
  destruct R as (_ & _ & _ & [(_ & R & _)|(_ & _ & _ & R & _)]); [discriminate|]. injection R as -> ->.
  split; [|reflexivity]. cbn [enc_request]. unfold enc_process_req, new_process_request.
  cbn [pr_common pr_reply pr_reserved pr_id pr_counter pr_size pr_msg].
  rewrite !lenN_app, !be_enc_lenN, (gcm_seal_len _ L). unfold enc_req_common, lenN at 1 2 3. rewrite Hid. cbn [length]. lia.
Qed.

(** ** Read *)
Definition read_after_deadline C (ses : csession) (n : N) (ok : bool) : cprog rd_result :=
  if negb ok then CRet (RdErr RdDeadline)
  else
    doc buf <- cdo CGetBuf;
    if 0 <? lenN buf then read_buffered buf n
    else
      doc rc <- clift parse_resp_common;
      match rc with
      | inl e => CRet (RdErr (RdParse e))
      | inr rc =>
          if negb (rs_success rc) then
            doc er <- clift (parse_error_resp rc);
            match er with
            | inl e => CRet (RdErr (RdParse e))
            | inr er => CRet (RdErr (RdRemote (er_code er) (er_msg er)))
            end
          else
            doc r <- clift (parse_process_resp rc);
            match r with
            | inl e => CRet (RdErr (RdParse e))
            | inr r =>
                doc last <- cdo CGetLast;
                if negb (ps_counter r =? last) then CRet (RdErr RdCounter)
                else
                  match client_gcm C (cs_secret ses) with
                  | None => CRet (RdErr RdKey)
                  | Some key =>
                      match gcm_open C key (gcm_nonce dir_s2c (ps_counter r)) (ps_msg r) with
                      | None => CRet (RdErr RdDecrypt)
                      | Some message =>
                          doc buf <- cdo CGetBuf;
                          doc _ <- cdo (CSetBuf (buf ++ message));
                          doc buf <- cdo CGetBuf;
                          read_buffered buf n
                      end
                  end
            end
      end.

(** Everything but the input and the buffer. *)
Definition same_writer (s s' : cst) : Prop :=
  c_sent s' = c_sent s /\ c_ctr s' = c_ctr s /\ c_last s' = c_last s /\ c_seals s' = c_seals s.

Lemma dropN_0 {A} n (l : list A) : (lenN (dropN n l) =? 0) = (lenN l <=? n).
Proof. rewrite dropN_len. destruct (N.leb_spec (lenN l) n); [apply N.eqb_eq|apply N.eqb_neq]; lia. Qed.

Lemma read_buffered_run C E b n s : b <> [] ->
  crun C E (read_buffered b n) s = (Some (RdOk (takeN n b) (lenN b <=? n)), c_set_buf s (dropN n b)).
Proof.
  intros H. unfold read_buffered, buffer_read. destruct b as [|x b]; [congruence|].
  rewrite crun_do. cbn [cexec fst snd crun]. rewrite dropN_0. reflexivity.
Qed.

Lemma read_buf_run C E o ses n s : c_works E -> c_buf s <> [] ->
  exists s', crun C E (client_read C o ses n) s = (Some (RdOk (takeN n (c_buf s)) (lenN (c_buf s) <=? n)), s') /\
    c_in s' = c_in s /\ c_buf s' = dropN n (c_buf s) /\ same_writer s s'.
Proof.
  intros W Hb. change (client_read C o ses n) with
    (cbind (if co_rto o then cdo CDeadline else CRet true) (read_after_deadline C ses n)).
  destruct (deadline_ok C E W (co_rto o) (read_after_deadline C ses n) s) as (s1 & -> & Hi & Hs & Hc & Hl & Hbf & Hse).
  unfold read_after_deadline. cbn [negb]. rewrite crun_do. cbn [cexec fst snd]. rewrite Hbf.
  destruct (N.ltb_spec 0 (lenN (c_buf s))) as [_|H0].
  2:{ exfalso. apply Hb, lenN_0. lia. }
  rewrite read_buffered_run by exact Hb. eexists. split; [reflexivity|].
  cbn [c_set_buf c_in c_buf]. split; [exact Hi|]. split; [reflexivity|]. repeat split; assumption.
Qed.

Lemma resp_fwd (b0 : byte) s e : exists rc, run parse_resp_common (b0 :: s) e = (inr rc, s) /\
  rs_success rc = (128 <=? b2n b0) /\ resp_common_ok rc.
Proof.
  unfold parse_resp_common, pcopy1. cbn [pbind run]. unfold fl_copy.
  destruct (N.leb_spec 1 (lenN (b0 :: s))) as [H|H]; [|rewrite lenN_cons in H; lia].
  change (b0 :: s) with ([b0] ++ s). rewrite takeN_app, dropN_app by reflexivity. cbn [pbind run].
  eexists. split; [reflexivity|]. split; [cbn; apply resp_bit|]. destruct b0; reflexivity.
Qed.
Lemma process_resp_fwd rc c ct s e : resp_common_ok rc -> c < two64 -> lenN ct <= max_message_size ->
  run (parse_process_resp rc) (be_enc 8 c ++ be_enc 8 (lenN ct) ++ ct ++ s) e =
  (inr {| ps_common := rc; ps_counter := c; ps_size := lenN ct; ps_msg := ct |}, s).
Proof.
  intros Hr Hc Hm.
  assert (Hok : process_resp_ok {| ps_common := rc; ps_counter := c; ps_size := lenN ct; ps_msg := ct |}) by (constructor; auto).
  exact (process_resp_rt_body _ s e Hok).
Qed.

Lemma read_fresh_run C E o ses n s oc rest c ct key : c_works E -> c_buf s = [] ->
  c_in s = oc ++ rest -> process_response_octets oc c ct -> client_gcm C (cs_secret ses) = Some key ->
  exists r s', crun C E (client_read C o ses n) s = (Some r, s') /\ c_in s' = rest /\ same_writer s s' /\
    if c =? c_last s then
      match gcm_open C key (gcm_nonce dir_s2c c) ct with
      | None => r = RdErr RdDecrypt /\ c_buf s' = []
      | Some [] => r = (if n =? 0 then RdOk [] true else RdErr RdBuffer) /\ c_buf s' = []
      | Some m => r = RdOk (takeN n m) (lenN m <=? n) /\ c_buf s' = dropN n m
      end
    else r = RdErr RdCounter /\ c_buf s' = [].
Proof.
  intros W Hb Hin (b0 & -> & H0 & Hc & Hm) K. change (client_read C o ses n) with
    (cbind (if co_rto o then cdo CDeadline else CRet true) (read_after_deadline C ses n)).
  destruct (deadline_ok C E W (co_rto o) (read_after_deadline C ses n) s) as (s1 & -> & Hi & Hs & Hc1 & Hl & Hbf & Hse).
  unfold read_after_deadline. cbn [negb]. rewrite crun_do. cbn [cexec fst snd]. rewrite Hbf, Hb.
  change (0 <? lenN []) with false. cbv iota. rewrite crun_bind, crun_lift, Hi, Hin.
  destruct (resp_fwd b0 ((be_enc 8 c ++ be_enc 8 (lenN ct) ++ ct) ++ rest) (ce_end E)) as (rc & R & Hsu & Hrc).
  cbn [app] in R |- *. rewrite R. cbn [fst snd]. rewrite Hsu. destruct (N.leb_spec 128 (b2n b0)); [|lia]. cbn [negb].
  rewrite crun_bind, crun_lift. cbn [c_in c_set_in]. rewrite <- !app_assoc, (process_resp_fwd rc c ct rest) by assumption.
  cbn [fst snd ps_counter ps_msg]. rewrite crun_do. cbn [cexec fst snd c_last c_set_in]. rewrite Hl.
  destruct (N.eqb_spec c (c_last s)) as [Ec|Ec]; cbn [negb].
  2:{ do 2 eexists. split; [reflexivity|]. cbn [c_in c_set_in c_buf]. rewrite Hbf. repeat split; auto. }
  rewrite K. destruct (gcm_open C key (gcm_nonce dir_s2c c) ct) as [m|].
  2:{ do 2 eexists. split; [reflexivity|]. cbn [c_in c_set_in c_buf]. rewrite Hbf. repeat split; auto. }
  rewrite crun_do. cbn [cexec fst snd c_buf c_set_in]. rewrite Hbf, Hb.
  rewrite crun_do. cbn [cexec fst snd]. rewrite crun_do. cbn [cexec fst snd c_buf c_set_buf app].
  destruct m as [|x m].
  - unfold read_buffered, buffer_read. destruct (n =? 0).
    + rewrite crun_do. do 2 eexists. split; [reflexivity|]. repeat split; auto.
    + do 2 eexists. split; [reflexivity|]. repeat split; auto.
  - rewrite read_buffered_run by discriminate. do 2 eexists. split; [reflexivity|]. repeat split; auto.
Qed.

Lemma chop_concat ns : forall m, concat (map fst (chop ns m)) ++ dropN (total ns) m = m.
Proof.
  induction ns as [|n ns IH]; intros m; cbn [chop map fst concat total fold_right].
  - rewrite <- (takeN_dropN 0 m) at 2. f_equal. unfold takeN. destruct (lenN m <=? 0) eqn:E; [|reflexivity].
    apply N.leb_le in E. symmetry. apply lenN_0. lia.
  - rewrite <- app_assoc. transitivity (takeN n m ++ dropN n m); [|apply takeN_dropN]. f_equal.
    rewrite <- (IH (dropN n m)) at 2. f_equal. fold (total ns). unfold dropN.
    destruct (N.leb_spec (lenN m) n) as [E1|E1], (N.leb_spec (lenN m) (n + total ns)) as [E2|E2]; try lia.
    + change (lenN []) with 0. destruct (N.leb_spec 0 (total ns)); [reflexivity|lia].
    + destruct (N.leb_spec (lenN (skipn (N.to_nat n) m)) (total ns)) as [E3|E3]; [reflexivity|].
      unfold lenN in *. rewrite skipn_length in E3. lia.
    + destruct (N.leb_spec (lenN (skipn (N.to_nat n) m)) (total ns)) as [E3|E3].
      * unfold lenN in *. rewrite skipn_length in E3. lia.
      * rewrite N2Nat.inj_add. clear. revert m. induction (N.to_nat n) as [|k IH]; intros m; [reflexivity|].
        destruct m; cbn [skipn Nat.add]; [symmetry; apply skipn_nil|apply IH].
Qed.

Lemma removelast_total n n' ns : total (removelast (n :: n' :: ns)) = n + total (removelast (n' :: ns)).
Proof. reflexivity. Qed.

Lemma reads_buffered C E o ses : c_works E -> forall ns s, c_buf s <> [] -> total (removelast ns) < lenN (c_buf s) ->
  exists s', reads C E o ses ns s = (map (fun x => Some (RdOk (fst x) (snd x))) (chop ns (c_buf s)), s') /\
    c_in s' = c_in s /\ c_buf s' = dropN (total ns) (c_buf s) /\ same_writer s s'.
Proof.
  intros W. induction ns as [|n ns IH]; intros s Hb Ht.
  - exists s. split; [reflexivity|]. split; [reflexivity|]. split; [|repeat split].
    pose proof (chop_concat [] (c_buf s)) as X. cbn in X. symmetry. exact X.
  - destruct (read_buf_run C E o ses n s W Hb) as (s1 & R1 & I1 & B1 & W1).
    cbn [reads chop map]. rewrite R1. destruct ns as [|n' ns].
    + cbn [reads]. exists s1. split; [reflexivity|]. split; [exact I1|]. split; [|exact W1].
      rewrite B1. cbn [total fold_right]. rewrite N.add_0_r. reflexivity.
    + rewrite removelast_total in Ht.
      assert (L1 : lenN (c_buf s1) = lenN (c_buf s) - n) by (rewrite B1; apply dropN_len).
      assert (N1 : c_buf s1 <> []) by (intros X; rewrite X in L1; change (lenN []) with 0 in L1; lia).
      destruct (IH s1 N1 ltac:(lia)) as (s2 & R2 & I2 & B2 & W2).
      rewrite R2. exists s2. rewrite <- B1. split; [reflexivity|]. split; [congruence|]. split.
      * rewrite B2. apply (app_inv_head (concat (map fst (chop (n :: n' :: ns) (c_buf s))))).
        rewrite (chop_concat (n :: n' :: ns) (c_buf s)). cbn [chop map concat fst] in *.
        rewrite <- B1. transitivity (takeN n (c_buf s) ++ c_buf s1); [|rewrite B1; apply takeN_dropN].
        rewrite <- app_assoc. f_equal. apply (chop_concat (n' :: ns) (c_buf s1)).
      * destruct W1 as (? & ? & ? & ?), W2 as (? & ? & ? & ?). repeat split; congruence.
Qed.

Lemma reads_fresh C (L : CryptoLaws C) E o ses ns s oc rest key m :
  c_works E -> c_buf s = [] -> c_in s = oc ++ rest -> client_gcm C (cs_secret ses) = Some key -> m <> [] ->
  process_response_octets oc (c_last s) (gcm_seal C key (gcm_nonce dir_s2c (c_last s)) m) ->
  ns <> [] -> total (removelast ns) < lenN m ->
  exists s', reads C E o ses ns s = (map (fun x => Some (RdOk (fst x) (snd x))) (chop ns m), s') /\
    c_in s' = rest /\ c_buf s' = dropN (total ns) m /\ same_writer s s'.
Proof.
  intros W Hb Hin K Hm Ho Hns Ht. destruct ns as [|n ns]; [congruence|].
  destruct (read_fresh_run C E o ses n s oc rest _ _ key W Hb Hin Ho K) as (r & s1 & R1 & I1 & W1 & B1).
  rewrite N.eqb_refl, (gcm_open_seal _ L) in B1. destruct m as [|x m]; [congruence|]. destruct B1 as [-> B1].
  cbn [reads]. rewrite R1. destruct ns as [|n' ns].
  - cbn [reads]. exists s1. split; [reflexivity|]. split; [exact I1|]. split; [|exact W1].
    rewrite B1. cbn [total fold_right]. rewrite N.add_0_r. reflexivity.
  - rewrite removelast_total in Ht.
    assert (L1 : lenN (c_buf s1) = lenN (x :: m) - n) by (rewrite B1; apply dropN_len).
    assert (N1 : c_buf s1 <> []) by (intros X; rewrite X in L1; change (lenN []) with 0 in L1; lia).
    destruct (reads_buffered C E o ses W (n' :: ns) s1 N1 ltac:(lia)) as (s2 & R2 & I2 & B2 & W2).
    rewrite R2. exists s2. split; [cbn [chop map]; rewrite <- B1; reflexivity|]. split; [congruence|]. split.
    + rewrite B2. apply (app_inv_head (concat (map fst (chop (n :: n' :: ns) (x :: m))))).
      rewrite (chop_concat (n :: n' :: ns) (x :: m)). 
      transitivity (takeN n (x :: m) ++ c_buf s1); [|rewrite B1; apply takeN_dropN].
      cbn [chop map concat fst]. rewrite <- B1, <- app_assoc. f_equal. apply (chop_concat (n' :: ns) (c_buf s1)).
    + destruct W1 as (? & ? & ? & ?), W2 as (? & ? & ? & ?). repeat split; congruence.
Qed.

Lemma verify_true_iff C pk h content sig : verify_signature C pk h content sig = VOk true <->
  ((h = SHA256 \/ h = SHA384 \/ h = SHA512) /\ good_signature C pk h content sig).
Proof.
  split.
  - intros H. assert (S : h = SHA256 \/ h = SHA384 \/ h = SHA512).
    { unfold verify_signature in H. destruct h; auto; discriminate. }
    split; [exact S|].
    destruct S as [->|[->| ->]]; [apply (verify_good C pk _ content sig 2)|apply (verify_good C pk _ content sig 3)|
      apply (verify_good C pk _ content sig 4)]; auto; reflexivity.
  - intros [S H].
    destruct S as [->|[->| ->]]; [apply (verify_good C pk _ content sig 2)|apply (verify_good C pk _ content sig 3)|
      apply (verify_good C pk _ content sig 4)]; auto; reflexivity.
Qed.
