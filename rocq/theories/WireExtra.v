(** Further lemmas about codecs and nonces, in the form used by the property
    files. *)
From Verif Require Import Bytes BytesProofs Parser ParserProofs Crypto Wire SpecLayout WireProofs WireSeq.

(** Every parser of /repo/protocol, with and without the common header. *)
Inductive wire_parser (C : Crypto) : forall A : Type, parser A -> Prop :=
| WpReqCommon : wire_parser C req_common parse_req_common
| WpRespCommon : wire_parser C resp_common parse_resp_common
| WpSetupReq rc : wire_parser C setup_req (parse_setup_req C rc)
| WpSetupResp rc : wire_parser C setup_resp (parse_setup_resp C rc)
| WpProcessReq rc : wire_parser C process_req (parse_process_req rc)
| WpProcessResp rc : wire_parser C process_resp (parse_process_resp rc)
| WpFetchResp rc : wire_parser C fetch_resp (parse_fetch_resp rc)
| WpErrorResp rc : wire_parser C error_resp (parse_error_resp rc)
| WpThen A B (p : parser A) (f : A -> parser B) :
    wire_parser C A p -> (forall a, wire_parser C B (f a)) -> wire_parser C B (pbind p f).

Lemma wire_parser_strict C A (p : parser A) : wire_parser C A p -> strict p.
Proof.
  induction 1.
  - apply strict_req_common.
  - apply strict_resp_common.
  - apply strict_setup_req.
  - apply strict_setup_resp.
  - apply strict_process_req.
  - apply strict_process_resp.
  - apply strict_fetch_resp.
  - apply strict_error_resp.
  - apply strict_bind; assumption.
Qed.

Lemma wire_truncation C A (p : parser A) : wire_parser C A p ->
  forall s e a rest, run p s e = (inr a, rest) ->
  exists used, s = used ++ rest /\
    (forall t e', run p (used ++ t) e' = (inr a, t)) /\
    (forall cut more e', used = cut ++ more -> more <> [] ->
      exists err, fst (run p cut e') = inl err).
Proof. intros Hp s e a rest H. exact (strict_run p (wire_parser_strict C A p Hp) s e a rest H). Qed.

Lemma req_header_spec :
  (forall (b : byte) (s : bytes) (e : send), exists r,
     run parse_req_common (b :: s) e = (inr r, s) /\ enc_req_common r = [b] /\
     b2n b = rq_version r * 16 + rq_action r) /\
  (forall v a s e, v < 16 -> a < 16 ->
     run parse_req_common (enc_req_common {| rq_version := v; rq_action := a |} ++ s) e
     = (inr {| rq_version := v; rq_action := a |}, s)).
Proof.
  split.
  - intros b s e. destruct (req_common_octet b s e) as (r & H1 & H2 & _ & H3). eauto.
  - intros v a s e Hv Ha. apply req_common_rt. split; assumption.
Qed.

Lemma setup_resp_rt' C pub h sig s e :
  length pub = 32%nat -> h < 256 -> sig <> [] -> lenN sig <= 2 ^ 16 ->
  run (parse_full_setup_resp C) (enc_setup_resp (new_setup_response pub h sig) ++ s) e
  = (inr (new_setup_response pub h sig), s).
Proof. intros. apply setup_resp_rt; [constructor; auto; reflexivity|assumption]. Qed.

Lemma setup_resp_empty_sig C pub h :
  length pub = 32%nat ->
  run (parse_full_setup_resp C) (enc_setup_resp (new_setup_response pub h [])) EndEOF = (inl EShort, []).
Proof.
  intros H. unfold parse_full_setup_resp. rewrite run_bind. unfold enc_setup_resp.
  rewrite resp_common_rt by reflexivity.
  cbn [new_setup_response ss_common ss_pub ss_sig]. change (0 <? lenN (@nil byte)) with false. cbn iota.
  unfold parse_setup_resp. rd. rewrite (pkix_x25519_len _ H), mod32_44, dec44.
  change (max_key_size <? 44) with false. cbn iota. rewrite run_bind, run_palloc.
  rewrite run_bind, run_pread by (apply pkix_x25519_len, H).
  rewrite run_bind. unfold parse_ecdh. rewrite (pkix_parse_x25519 C _ H). reflexivity.
Qed.

Lemma process_req_rt' id ctr msg reply s e :
  length id = 16%nat -> ctr < 2 ^ 64 -> lenN msg <= 2 ^ 30 ->
  run parse_full_process_req (enc_process_req (new_process_request id ctr msg reply) ++ s) e
  = (inr (new_process_request id ctr msg reply), s).
Proof. intros. apply process_req_rt. constructor; auto; try reflexivity. split; reflexivity. Qed.
Lemma process_resp_rt' ctr msg s e :
  ctr < 2 ^ 64 -> lenN msg <= 2 ^ 30 ->
  run parse_full_process_resp (enc_process_resp (new_process_response ctr msg) ++ s) e
  = (inr (new_process_response ctr msg), s).
Proof. intros. apply process_resp_rt. constructor; auto; reflexivity. Qed.
Lemma setup_req_rt' C id pub s e :
  length id = 16%nat -> length pub = 32%nat ->
  run (parse_full_setup_req C) (enc_setup_req (new_setup_request id pub) ++ s) e
  = (inr (new_setup_request id pub), s).
Proof. intros. apply setup_req_rt. constructor; auto. split; reflexivity. Qed.
Lemma fetch_resp_rt' alg key s e :
  alg < 256 -> lenN key <= 2 ^ 16 ->
  run parse_full_fetch_resp (enc_fetch_resp (new_fetch_response alg key) ++ s) e
  = (inr (new_fetch_response alg key), s).
Proof. intros. apply fetch_resp_rt. constructor; auto; reflexivity. Qed.
Lemma error_resp_rt' code msg s e :
  code < 2 ^ 32 -> lenN msg < 2 ^ 63 ->
  run parse_full_error_resp (enc_error_resp (new_error_response code msg) ++ s) e
  = (inr (new_error_response code msg), s).
Proof. intros. apply error_resp_rt. constructor; auto; reflexivity. Qed.

(** ** Sizes *)
Lemma size_limits C :
  (forall rc s e, Forall (fun n => n <= 2 ^ 16) (allocs (parse_setup_req C rc) s e)) /\
  (forall rc s e, Forall (fun n => n <= 2 ^ 16) (allocs (parse_setup_resp C rc) s e)) /\
  (forall rc s e, Forall (fun n => n <= 2 ^ 16) (allocs (parse_fetch_resp rc) s e)) /\
  (forall rc s e, Forall (fun n => n <= 2 ^ 30) (allocs (parse_process_req rc) s e)) /\
  (forall rc s e, Forall (fun n => n <= 2 ^ 30) (allocs (parse_process_resp rc) s e)) /\
  (forall rc f id ctr n s e, length id = 16%nat -> 2 ^ 30 < n -> n < 2 ^ 64 ->
     exists rest, run (parse_process_req rc) (f :: id ++ be_enc 8 ctr ++ be_enc 8 n ++ s) e = (inl ELimit, rest)) /\
  (forall rc ctr n s e, 2 ^ 30 < n -> n < 2 ^ 64 ->
     exists rest, run (parse_process_resp rc) (be_enc 8 ctr ++ be_enc 8 n ++ s) e = (inl ELimit, rest)) /\
  (forall rc id n s e, length id = 16%nat -> 2 ^ 16 < n -> n < 2 ^ 32 ->
     exists rest, run (parse_setup_req C rc) (id ++ be_enc 4 n ++ s) e = (inl ELimit, rest)) /\
  (forall rc n s e, 2 ^ 16 < n -> n < 2 ^ 32 ->
     exists rest, run (parse_setup_resp C rc) (be_enc 4 n ++ s) e = (inl ELimit, rest)) /\
  (forall rc k h n s e, length k = 32%nat -> 2 ^ 16 < n -> n < 2 ^ 32 ->
     exists rest, run (parse_setup_resp C rc)
       (be_enc 4 44 ++ pkix_x25519 k ++ [h] ++ be_enc 4 n ++ s) e = (inl ELimit, rest)) /\
  (forall rc a n s e, 2 ^ 16 < n -> n < 2 ^ 64 ->
     exists rest, run (parse_fetch_resp rc) ([a] ++ be_enc 8 n ++ s) e = (inl ELimit, rest)).
Proof.
  repeat apply conj; intros.
  - apply setup_req_allocs.
  - apply setup_resp_allocs.
  - apply fetch_resp_allocs.
  - apply process_req_allocs.
  - apply process_resp_allocs.
  - eexists; apply process_req_reject; assumption.
  - eexists; apply process_resp_reject; assumption.
  - eexists; apply setup_req_reject; assumption.
  - eexists; apply setup_resp_reject; assumption.
  - eexists; apply setup_resp_sig_reject; assumption.
  - eexists; apply fetch_resp_reject; assumption.
Qed.

Lemma buffered_bind {A B} (p : parser A) (f : A -> parser B) s e :
  buffered (pbind p f) s e =
  buffered p s e + match run p s e with
                   | (inr a, s') => buffered (f a) s' e
                   | (inl _, _) => 0
                   end.
Proof.
  revert s; induction p as [a|er|n k IH|n k IH|n k IH]; intros s; cbn [pbind buffered run]; try lia.
  - destruct (fl_read n s e) as [r s']; apply IH.
  - destruct (fl_copy n s e) as [r s']. rewrite IH. lia.
  - apply IH.
Qed.

Lemma error_resp_buffers (n : N) : 0 < n -> n < 2 ^ 63 ->
  forall rc code t e, length code = 4%nat -> lenN t = n ->
  buffered (parse_error_resp rc) (code ++ be_enc 8 n ++ t) e = n /\
  fst (run (parse_error_resp rc) (code ++ be_enc 8 n ++ t) e)
    = inr {| er_common := rc; er_code := be_dec code; er_msg := t |}.
Proof.
  intros Hn Hlt rc code t e Hc Ht. unfold parse_error_resp.
  rewrite buffered_bind. rewrite run_bind, run_pread by (unfold lenN; rewrite Hc; reflexivity).
  rewrite buffered_bind. rewrite run_bind, run_pread by reflexivity.
  assert (B : forall k s, buffered (pread k) s e = 0)
    by (intros k s; unfold pread; cbn [buffered]; destruct (fl_read k s e) as [[?|?] ?]; reflexivity).
  rewrite !B. rewrite (be_dec_enc_small 8 n) by (rewrite pow256_8; unfold two64; lia).
  cbv zeta. destruct (N.ltb_spec 0 n); [|lia]. unfold limit_of_size.
  change two63 with (2 ^ 63). destruct (N.ltb_spec n (2 ^ 63)); [|lia].
  cbn [run buffered]. pose proof (fl_copy_app n t [] e Ht) as F. rewrite app_nil_r in F.
  rewrite F. cbn [fst].
  rewrite Ht, N.eqb_refl. cbn [andb buffered run fst]. split; [lia|reflexivity].
Qed.

Lemma error_resp_no_limit :
  ~ exists limit : N, limit < 2 ^ 63 - 1 /\
      forall rc s e m rest, run (parse_error_resp rc) s e = (inr m, rest) -> lenN (er_msg m) <= limit.
Proof.
  intros (lim & Hl & H).
  pose (t := repeat x00 (N.to_nat (lim + 1))).
  assert (Ht : lenN t = lim + 1) by (unfold lenN, t; rewrite repeat_length; lia).
  destruct (error_resp_buffers (lim + 1) ltac:(lia) ltac:(lia) {| rs_success := false; rs_reserved := 0 |}
              (be_enc 4 1) t EndEOF eq_refl Ht) as [_ E].
  destruct (run _ _ _) as [r rest] eqn:R in E. cbn [fst] in E. subst r.
  apply H in R. cbn [er_msg] in R. lia.
Qed.

(** The only bound there is: what the peer actually sends. *)
Lemma error_resp_at_most_sent rc s e :
  buffered (parse_error_resp rc) s e <= lenN s /\ allocs (parse_error_resp rc) s e = [].
Proof.
  assert (B : forall k s, buffered (pread k) s e = 0)
    by (intros k s'; unfold pread; cbn [buffered]; destruct (fl_read k s' e) as [[?|?] ?]; reflexivity).
  assert (A : forall k s, allocs (pread k) s e = []) by (intros; apply allocs_pread).
  assert (L : forall k s r s', fl_copy k s e = (r, s') -> lenN (fst r) <= lenN s).
  { intros k s1 r s2. unfold fl_copy. destruct (N.leb_spec k (lenN s1)); intros [= <- <-]; cbn [fst].
    - pose proof (takeN_dropN k s1) as E. apply (f_equal lenN) in E. rewrite lenN_app in E. lia.
    - lia. }
  unfold parse_error_resp. rewrite buffered_bind, allocs_bind, B, A.
  destruct (run (pread 4) s e) as [[er|c] s1] eqn:R1; [split; [lia|reflexivity]|].
  rewrite buffered_bind, allocs_bind, B, A.
  destruct (run (pread 8) s1 e) as [[er|z] s2] eqn:R2; [split; [lia|reflexivity]|].
  apply run_suffix in R1 as [c1 ->]. apply run_suffix in R2 as [c2 ->].
  cbv zeta. destruct (0 <? be_dec z); [|split; [cbn; lia|reflexivity]].
  cbn [buffered allocs]. destruct (fl_copy (limit_of_size (be_dec z)) s2 e) as [[m [er|]] s3] eqn:F;
    apply L in F; cbn [fst] in F |- *; rewrite !lenN_app;
    [|destruct ((be_dec z <? two63) && (lenN m =? be_dec z))]; cbn; split; try reflexivity; lia.
Qed.

(** ** Layout *)
Lemma published_layout_ok :
  (forall id k, enc_setup_req (new_setup_request id k) = doc_setup_request id (pkix_x25519 k)) /\
  (forall r id c m, enc_process_req (new_process_request id c m r) = doc_process_request r id c m) /\
  (forall c m, enc_process_resp (new_process_response c m) = doc_process_response c m) /\
  (forall c m, enc_error_resp (new_error_response c m) = doc_error_response c m) /\
  (forall a b id, setup_transcript a b id = doc_transcript (pkix_x25519 a) (pkix_x25519 b) id) /\
  enc_req_common hello_request = doc_hello_request /\
  enc_resp_common hello_response = doc_hello_response /\
  enc_req_common fetch_key_request = doc_fetch_key_request.
Proof.
  repeat apply conj; intros.
  - apply layout_setup_req.
  - apply layout_process_req.
  - apply layout_process_resp.
  - apply layout_error_resp.
  - apply layout_transcript.
  - reflexivity.
  - reflexivity.
  - reflexivity.
Qed.
Lemma published_layout_differs :
  (forall alg key, lenN key <= 2 ^ 16 ->
     enc_fetch_resp (new_fetch_response alg key) <> doc_fetch_key_response alg key) /\
  (forall k h sig, sig <> [] ->
     enc_setup_resp (new_setup_response k h sig) <> doc_setup_response (pkix_x25519 k) h sig).
Proof.
  split.
  - intros alg key H E. pose proof (layout_fetch_resp_diff alg key) as D. rewrite E in D.
    unfold two32 in D. lia.
  - intros k h sig H E. pose proof (layout_setup_resp_diff k h sig H) as D. rewrite E in D. lia.
Qed.
(** The octets the deviating messages do have. *)
Lemma actual_layout :
  (forall alg key, enc_fetch_resp (new_fetch_response alg key)
     = octets [FBits 1 1 0; FInt 1 alg; FInt 8 (lenN key); FRaw key]) /\
  (forall k h sig, sig <> [] -> enc_setup_resp (new_setup_response k h sig)
     = octets [FBits 1 1 0; FInt 4 (lenN (pkix_x25519 k)); FRaw (pkix_x25519 k);
               FInt 1 h; FInt 4 (lenN sig); FRaw sig]).
Proof.
  split.
  - intros. unfold enc_fetch_resp. rewrite !octets_cons, octets_nil.
    cbn [field_octets new_fetch_response fk_common fk_alg fk_size fk_key].
    rewrite !octet_of_be, app_nil_r. reflexivity.
  - intros k h sig Hne. unfold enc_setup_resp. rewrite !octets_cons, octets_nil.
    cbn [field_octets new_setup_response ss_common ss_pub ss_hash ss_sig].
    destruct (N.ltb_spec 0 (lenN sig)) as [Hl|Hl].
    2:{ exfalso; apply Hne, lenN_0; lia. }
    rewrite !octet_of_be, !be_enc4_mod, app_nil_r. reflexivity.
Qed.

(** ** Nonce *)
Lemma nonce_form dir ctr size : 9 <= size ->
  nonce dir ctr size = Some (dir :: repeat x00 (N.to_nat (size - 9)) ++ be_enc 8 ctr).
Proof.
  intros H. unfold nonce. destruct (N.ltb_spec size 8); [lia|].
  replace (N.to_nat (size - 8)) with (S (N.to_nat (size - 9))) by lia.
  cbn [firstn app]. do 3 f_equal.
  replace (N.to_nat (size - 1)) with (N.to_nat (size - 9) + 8)%nat by lia.
  rewrite repeat_app, <- (repeat_length x00 (N.to_nat (size - 9))) at 1.
  rewrite firstn_app_exact. reflexivity.
Qed.
Lemma nonce_spec dir ctr size : 9 <= size ->
  exists n, nonce dir ctr size = Some n /\ lenN n = size /\
    hd_error n = Some dir /\
    skipn (N.to_nat (size - 8)) n = be_enc 8 ctr /\
    (forall i, 0 < i < size - 8 -> nth_error n (N.to_nat i) = Some x00).
Proof.
  intros H. rewrite (nonce_form dir ctr size H). eexists; split; [reflexivity|].
  set (z := repeat x00 (N.to_nat (size - 9))).
  assert (Lz : length z = N.to_nat (size - 9)) by apply repeat_length.
  repeat split.
  - unfold lenN. cbn [length]. rewrite app_length, be_enc_length, Lz. lia.
  - replace (N.to_nat (size - 8)) with (length (dir :: z)) by (cbn [length]; lia).
    change (dir :: z ++ be_enc 8 ctr) with ((dir :: z) ++ be_enc 8 ctr). apply skipn_app_exact.
  - intros i [Hi1 Hi2]. replace (N.to_nat i) with (S (N.to_nat (i - 1))) by lia. cbn [nth_error].
    rewrite nth_error_app1 by lia. unfold z. apply nth_error_repeat. lia.
Qed.
Lemma nonce_inj d1 c1 d2 c2 size : 9 <= size -> c1 < 2 ^ 64 -> c2 < 2 ^ 64 ->
  nonce d1 c1 size = nonce d2 c2 size -> d1 = d2 /\ c1 = c2.
Proof.
  intros H H1 H2. rewrite !nonce_form by assumption. intros [= -> E].
  apply app_inv_head in E. split; [reflexivity|].
  apply (be_enc_inj 8); [rewrite pow256_8; assumption..|exact E].
Qed.
Lemma nonce_panics dir ctr size : nonce dir ctr size = None <-> size < 8.
Proof.
  unfold nonce. destruct (N.ltb_spec size 8); split; intros; try discriminate; try reflexivity; try lia.
Qed.
Lemma gcm_nonce_form dir ctr : gcm_nonce dir ctr = dir :: repeat x00 3 ++ be_enc 8 ctr.
Proof. unfold gcm_nonce, gcm_nonce_size. rewrite nonce_form by lia. reflexivity. Qed.
Lemma gcm_nonce_inj d1 c1 d2 c2 : c1 < two64 -> c2 < two64 ->
  gcm_nonce d1 c1 = gcm_nonce d2 c2 -> d1 = d2 /\ c1 = c2.
Proof.
  intros H1 H2 E. unfold gcm_nonce in E. rewrite !nonce_form in E by (unfold gcm_nonce_size; lia).
  apply (nonce_inj d1 c1 d2 c2 gcm_nonce_size); [unfold gcm_nonce_size; lia|assumption..|].
  rewrite !nonce_form by (unfold gcm_nonce_size; lia). f_equal. exact E.
Qed.
