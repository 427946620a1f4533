(** Properties C01-C14: wire formats and nonces. *)
From Verif Require Import Bytes Parser Crypto Wire SpecLayout WireProofs WireSeq WireExtra Toy.

Theorem C01_request_header_exact :
  (forall (b : byte) (s : bytes) (e : send), exists r,
     run parse_req_common (b :: s) e = (inr r, s) /\ enc_req_common r = [b] /\
     b2n b = rq_version r * 16 + rq_action r) /\
  (forall v a s e, v < 16 -> a < 16 ->
     run parse_req_common (enc_req_common {| rq_version := v; rq_action := a |} ++ s) e
     = (inr {| rq_version := v; rq_action := a |}, s)).
Proof. exact req_header_spec. Qed.
Print Assumptions C01_request_header_exact.
Example C01_example : run parse_req_common [x13; xff] EndEOF = (inr {| rq_version := 1; rq_action := 3 |}, [xff]).
Proof. reflexivity. Qed.

Theorem C02_process_request_roundtrip : forall id ctr msg reply s e,
  length id = 16%nat -> ctr < 2 ^ 64 -> lenN msg <= 2 ^ 30 ->
  run (dop rc <- parse_req_common; parse_process_req rc)
      (enc_process_req (new_process_request id ctr msg reply) ++ s) e
  = (inr (new_process_request id ctr msg reply), s).
Proof. exact process_req_rt'. Qed.
Print Assumptions C02_process_request_roundtrip.
Example C02_example : length (repeat x07 16) = 16%nat /\ 2 ^ 64 - 1 < 2 ^ 64 /\ lenN [x01; x02] <= 2 ^ 30.
Proof. vm_compute. repeat split; discriminate. Qed.

Theorem C03_process_response_roundtrip : forall ctr msg s e,
  ctr < 2 ^ 64 -> lenN msg <= 2 ^ 30 ->
  run (dop rc <- parse_resp_common; parse_process_resp rc)
      (enc_process_resp (new_process_response ctr msg) ++ s) e
  = (inr (new_process_response ctr msg), s).
Proof. exact process_resp_rt'. Qed.
Print Assumptions C03_process_response_roundtrip.
Example C03_example :
  run (dop rc <- parse_resp_common; parse_process_resp rc)
      (enc_process_resp (new_process_response (2 ^ 63) [x01; x02; x03]) ++ [x09]) EndEOF
  = (inr (new_process_response (2 ^ 63) [x01; x02; x03]), [x09]).
Proof. vm_compute. reflexivity. Qed.

Theorem C04_setup_request_roundtrip : forall C id pub s e,
  length id = 16%nat -> length pub = 32%nat ->
  run (dop rc <- parse_req_common; parse_setup_req C rc)
      (enc_setup_req (new_setup_request id pub) ++ s) e
  = (inr (new_setup_request id pub), s).
Proof. exact setup_req_rt'. Qed.
Print Assumptions C04_setup_request_roundtrip.
Example C04_example : length (repeat x07 16) = 16%nat /\ length (repeat xaa 32) = 32%nat.
Proof. split; reflexivity. Qed.

(** The empty signature is not encoded at all, so it does not survive. *)
Theorem C05_setup_response_roundtrip_partial : forall C pub h sig s e,
  length pub = 32%nat -> h < 256 -> sig <> [] -> lenN sig <= 2 ^ 16 ->
  run (dop rc <- parse_resp_common; parse_setup_resp C rc)
      (enc_setup_resp (new_setup_response pub h sig) ++ s) e
  = (inr (new_setup_response pub h sig), s).
Proof. exact setup_resp_rt'. Qed.
Print Assumptions C05_setup_response_roundtrip_partial.
Theorem C05_setup_response_roundtrip_refuted : forall C pub h, length pub = 32%nat ->
  run (dop rc <- parse_resp_common; parse_setup_resp C rc)
      (enc_setup_resp (new_setup_response pub h [])) EndEOF = (inl EShort, []).
Proof. exact setup_resp_empty_sig. Qed.
Print Assumptions C05_setup_response_roundtrip_refuted.
Example C05_example : length (repeat xaa 32) = 32%nat /\ 4 < 256 /\ [x01; x02] <> [] /\ lenN [x01; x02] <= 2 ^ 16.
Proof. vm_compute. repeat split; discriminate. Qed.

Theorem C06_fetch_key_response_roundtrip : forall alg key s e,
  alg < 256 -> lenN key <= 2 ^ 16 ->
  run (dop rc <- parse_resp_common; parse_fetch_resp rc)
      (enc_fetch_resp (new_fetch_response alg key) ++ s) e
  = (inr (new_fetch_response alg key), s).
Proof. exact fetch_resp_rt'. Qed.
Print Assumptions C06_fetch_key_response_roundtrip.
Example C06_example :
  run (dop rc <- parse_resp_common; parse_fetch_resp rc)
      (enc_fetch_resp (new_fetch_response 3 [x01; x02; x03]) ++ [x09]) EndErr
  = (inr (new_fetch_response 3 [x01; x02; x03]), [x09]).
Proof. vm_compute. reflexivity. Qed.

Theorem C07_error_response_roundtrip : forall code msg s e,
  code < 2 ^ 32 -> lenN msg < 2 ^ 63 ->
  run (dop rc <- parse_resp_common; parse_error_resp rc)
      (enc_error_resp (new_error_response code msg) ++ s) e
  = (inr (new_error_response code msg), s).
Proof. exact error_resp_rt'. Qed.
Print Assumptions C07_error_response_roundtrip.
Example C07_example :
  run (dop rc <- parse_resp_common; parse_error_resp rc)
      (enc_error_resp (new_error_response 5 [x01; x02; x03]) ++ [x09]) EndErr
  = (inr (new_error_response 5 [x01; x02; x03]), [x09]).
Proof. vm_compute. reflexivity. Qed.

Theorem C08_truncation_rejected : forall C A (p : parser A), wire_parser C A p ->
  forall s e a rest, run p s e = (inr a, rest) ->
  exists used, s = used ++ rest /\
    (forall t e', run p (used ++ t) e' = (inr a, t)) /\
    (forall cut more e', used = cut ++ more -> more <> [] ->
      exists err, fst (run p cut e') = inl err).
Proof. exact wire_truncation. Qed.
Print Assumptions C08_truncation_rejected.
Example C08_example : exists m,
  wire_parser toy _ (dop rc <- parse_resp_common; parse_error_resp rc) /\
  run (dop rc <- parse_resp_common; parse_error_resp rc)
      (enc_error_resp (new_error_response 5 [x01; x02]) ++ [x09]) EndEOF = (inr m, [x09]).
Proof.
  eexists. split; [apply WpThen; [apply WpRespCommon|intros; apply WpErrorResp]|].
  vm_compute. reflexivity.
Qed.

Theorem C09_size_limits : forall C,
  (forall rc s e, Forall (fun n => n <= 2 ^ 16) (allocs (parse_setup_req C rc) s e)) /\
  (forall rc s e, Forall (fun n => n <= 2 ^ 16) (allocs (parse_setup_resp C rc) s e)) /\
  (forall rc s e, Forall (fun n => n <= 2 ^ 16) (allocs (parse_fetch_resp rc) s e)) /\
  (forall rc s e, Forall (fun n => n <= 2 ^ 30) (allocs (parse_process_req rc) s e)) /\
  (forall rc s e, Forall (fun n => n <= 2 ^ 30) (allocs (parse_process_resp rc) s e)) /\
  (forall rc f id ctr n s e, length id = 16%nat -> 2 ^ 30 < n -> n < 2 ^ 64 ->
     exists rest, run (parse_process_req rc) (f :: id ++ be_enc 8 ctr ++ be_enc 8 n ++ s) e = (inl ELimit, rest)) /\
  (forall rc ctr n s e, 2 ^ 30 < n -> n < 2 ^ 64 ->
     exists rest, run (parse_process_resp rc) (be_enc 8 ctr ++ be_enc 8 n ++ s) e = (inl ELimit, rest)) /\
  (forall rc id n s e, length id = 16%nat -> 2 ^ 16 < n -> n < 2 ^ 32 ->
     exists rest, run (parse_setup_req C rc) (id ++ be_enc 4 n ++ s) e = (inl ELimit, rest)) /\
  (forall rc n s e, 2 ^ 16 < n -> n < 2 ^ 32 ->
     exists rest, run (parse_setup_resp C rc) (be_enc 4 n ++ s) e = (inl ELimit, rest)) /\
  (forall rc k h n s e, length k = 32%nat -> 2 ^ 16 < n -> n < 2 ^ 32 ->
     exists rest, run (parse_setup_resp C rc)
       (be_enc 4 44 ++ pkix_x25519 k ++ [h] ++ be_enc 4 n ++ s) e = (inl ELimit, rest)) /\
  (forall rc a n s e, 2 ^ 16 < n -> n < 2 ^ 64 ->
     exists rest, run (parse_fetch_resp rc) ([a] ++ be_enc 8 n ++ s) e = (inl ELimit, rest)).
Proof. exact size_limits. Qed.
Print Assumptions C09_size_limits.
Example C09_example :
  allocs (parse_process_req {| rq_version := 1; rq_action := 3 |})
    (x80 :: repeat x07 16 ++ be_enc 8 1 ++ be_enc 8 (2 ^ 30)) EndEOF = [2 ^ 30] /\
  allocs (parse_process_req {| rq_version := 1; rq_action := 3 |})
    (x80 :: repeat x07 16 ++ be_enc 8 1 ++ be_enc 8 (2 ^ 30 + 1)) EndEOF = [].
Proof. vm_compute. auto. Qed.

(** No limit exists: error.go:43-76 checks none. The only bound is what the peer
    actually transmits. *)
Theorem C10_error_response_limit_refuted :
  ~ exists limit : N, limit < 2 ^ 63 - 1 /\
      forall rc s e m rest, run (parse_error_resp rc) s e = (inr m, rest) -> lenN (er_msg m) <= limit.
Proof. exact error_resp_no_limit. Qed.
Print Assumptions C10_error_response_limit_refuted.
Theorem C10_error_response_buffer_partial : forall rc s e,
  buffered (parse_error_resp rc) s e <= lenN s /\ allocs (parse_error_resp rc) s e = [].
Proof. exact error_resp_at_most_sent. Qed.
Print Assumptions C10_error_response_buffer_partial.
Example C10_example :
  buffered (parse_error_resp {| rs_success := false; rs_reserved := 0 |})
    (be_enc 4 1 ++ be_enc 8 (2 ^ 40) ++ [x01; x02; x03]) EndEOF = 3.
Proof. vm_compute. reflexivity. Qed.

Theorem C11_segmentation_independence : forall A (p : parser A) segs1 segs2 e,
  concat segs1 = concat segs2 ->
  fst (run_ch p segs1 e) = fst (run_ch p segs2 e) /\
  concat (snd (run_ch p segs1 e)) = concat (snd (run_ch p segs2 e)).
Proof. exact @ParserProofs.run_ch_indep. Qed.
Print Assumptions C11_segmentation_independence.
(** ... and is what the flat stream gives. *)
Theorem C11_segmentation_flat : forall A (p : parser A) segs e r rest,
  run_ch p segs e = (r, rest) -> run p (concat segs) e = (r, concat rest).
Proof. exact @ParserProofs.run_ch_sim. Qed.
Print Assumptions C11_segmentation_flat.
Example C11_example :
  run_ch (dop rc <- parse_resp_common; parse_error_resp rc)
     [[x00; x00]; []; [x00; x00; x05; x00; x00; x00; x00; x00]; [x00; x00; x02; x61]; [x62; x63]] EndEOF
  = (inr (new_error_response 5 [x61; x62]), [[x63]]).
Proof. vm_compute. reflexivity. Qed.

(** A prefix of a sequence of messages is a prefix of the sequence. *)
Theorem C12_requests_unambiguous : forall l1 l2 t,
  Forall request_ok l1 -> Forall request_ok l2 ->
  concat (map enc_request l1) = concat (map enc_request l2) ++ t ->
  exists l3, l1 = l2 ++ l3 /\ concat (map enc_request l3) = t.
Proof. exact requests_unique. Qed.
Print Assumptions C12_requests_unambiguous.
(** The i-th response answers a request of the i-th kind in [qs]. *)
Theorem C12_responses_unambiguous : forall qs l1 l2 t,
  Forall2 (fun q r => response_ok r /\ answers q r) (firstn (length l1) qs) l1 ->
  Forall2 (fun q r => response_ok r /\ answers q r) (firstn (length l2) qs) l2 ->
  concat (map enc_response l1) = concat (map enc_response l2) ++ t ->
  exists l3, l1 = l2 ++ l3 /\ concat (map enc_response l3) = t.
Proof. exact responses_unique_mixed. Qed.
Print Assumptions C12_responses_unambiguous.
Example C12_example :
  Forall request_ok [RqHello; RqSetup (repeat x01 16) (repeat x02 32);
                     RqProcess (repeat x01 16) 7 [x01; x02] true; RqFetchKey] /\
  Forall2 (fun q r => response_ok r /\ answers q r) [action_hello; action_process; action_process] [RsHello; RsProcess 7 [x01]; RsError 5 [x61]].
Proof.
  split; repeat constructor; vm_compute; discriminate.
Qed.

Theorem C13_published_layout_partial :
  (forall id k, enc_setup_req (new_setup_request id k) = doc_setup_request id (pkix_x25519 k)) /\
  (forall r id c m, enc_process_req (new_process_request id c m r) = doc_process_request r id c m) /\
  (forall c m, enc_process_resp (new_process_response c m) = doc_process_response c m) /\
  (forall c m, enc_error_resp (new_error_response c m) = doc_error_response c m) /\
  (forall a b id, setup_transcript a b id = doc_transcript (pkix_x25519 a) (pkix_x25519 b) id) /\
  enc_req_common hello_request = doc_hello_request /\
  enc_resp_common hello_response = doc_hello_response /\
  enc_req_common fetch_key_request = doc_fetch_key_request.
Proof. exact published_layout_ok. Qed.
Print Assumptions C13_published_layout_partial.
(** Fetch-key responses carry an 8-octet size (README: 4) and signed Setup
    responses a 4-octet signature size (README: 8). *)
Theorem C13_published_layout_refuted :
  (forall alg key, lenN key <= 2 ^ 16 ->
     enc_fetch_resp (new_fetch_response alg key) <> doc_fetch_key_response alg key) /\
  (forall k h sig, sig <> [] ->
     enc_setup_resp (new_setup_response k h sig) <> doc_setup_response (pkix_x25519 k) h sig).
Proof. exact published_layout_differs. Qed.
Print Assumptions C13_published_layout_refuted.
Theorem C13_actual_layout :
  (forall alg key, enc_fetch_resp (new_fetch_response alg key)
     = octets [FBits 1 1 0; FInt 1 alg; FInt 8 (lenN key); FRaw key]) /\
  (forall k h sig, sig <> [] -> enc_setup_resp (new_setup_response k h sig)
     = octets [FBits 1 1 0; FInt 4 (lenN (pkix_x25519 k)); FRaw (pkix_x25519 k);
               FInt 1 h; FInt 4 (lenN sig); FRaw sig]).
Proof. exact actual_layout. Qed.
Print Assumptions C13_actual_layout.
Example C13_example :
  doc_process_request true (repeat x07 16) 258 [xaa] =
  [x13; x80] ++ repeat x07 16 ++ [x00;x00;x00;x00;x00;x00;x01;x02] ++ [x00;x00;x00;x00;x00;x00;x00;x01] ++ [xaa].
Proof. vm_compute. reflexivity. Qed.

Theorem C14_nonce_shape : forall dir ctr size, 9 <= size ->
  exists n, nonce dir ctr size = Some n /\ lenN n = size /\
    hd_error n = Some dir /\
    skipn (N.to_nat (size - 8)) n = be_enc 8 ctr /\
    (forall i, 0 < i < size - 8 -> nth_error n (N.to_nat i) = Some x00).
Proof. exact nonce_spec. Qed.
Print Assumptions C14_nonce_shape.
Theorem C14_nonce_injective : forall d1 c1 d2 c2 size,
  9 <= size -> c1 < 2 ^ 64 -> c2 < 2 ^ 64 ->
  nonce d1 c1 size = nonce d2 c2 size -> d1 = d2 /\ c1 = c2.
Proof. exact nonce_inj. Qed.
Print Assumptions C14_nonce_injective.
Example C14_example : nonce dir_s2c 258 12 = Some [x01;x00;x00;x00;x00;x00;x00;x00;x00;x00;x01;x02].
Proof. vm_compute. reflexivity. Qed.
(** The bound is sharp: at size 8 the direction is overwritten. *)
Example C14_size8 : nonce dir_c2s 5 8 = nonce dir_s2c 5 8.
Proof. vm_compute. reflexivity. Qed.
