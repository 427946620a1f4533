(** Properties C16, C42-C47, C49, C50: one client, for every behaviour of the
    network and the environment ([cenv]) and every client state ([cst]). *)
From Verif Require Import Bytes Parser Crypto Kdf Wire SpecLayout WireSeq Toy Replay SpecReplay Server ServerSeq SpecServer ServerProps
  Keys Conc SpecConc Client ClientSeq SpecClient SpecE2E ClientProofs E2EProofs ClientProps Agreement
  ServerExamples ClientExamples.

(** C16 is refuted: the write at the 2^64th counter fails, the next one succeeds
    and reuses the nonce of the session's first message under the same key. *)
Theorem C16_exhaustion_is_final_refuted : forall C, CryptoLaws C -> forall E o ses p0 ps pe p2 s key,
  c_works E -> client_gcm C (cs_secret ses) = Some key -> c_ctr s = 0 -> 1 + lenN ps = 2 ^ 64 - 1 ->
  exists rs l n s', writes C E o ses (p0 :: ps ++ [pe; p2]) s = (rs ++ [Some WrExhausted; Some (WrConn n false)], s') /\
    let nonce := x00 :: repeat x00 3 ++ be_enc 8 1 in
    c_seals s' = c_seals s ++ (1, key, nonce, p0) :: l ++ [(1, key, nonce, p2)].
Proof. exact nonce_reused. Qed.
Print Assumptions C16_exhaustion_is_final_refuted.
Example C16_example : 1 + lenN (repeat ([] : bytes) (N.to_nat (2 ^ 64 - 2))) = 2 ^ 64 - 1.
Proof. unfold lenN. rewrite repeat_length, N2Nat.id. reflexivity. Qed.

Theorem C42_transcript_binds : forall a b id a' b' id',
  lenN a < 2 ^ 32 -> lenN b < 2 ^ 32 -> lenN a' < 2 ^ 32 -> lenN b' < 2 ^ 32 ->
  doc_transcript a b id = doc_transcript a' b' id' -> a = a' /\ b = b' /\ id = id'.
Proof. exact transcript_inj. Qed.
Print Assumptions C42_transcript_binds.
(** What client and server actually compute, for X25519 keys. *)
Theorem C42_code_transcript_binds : forall a b id a' b' id',
  length a = 32%nat -> length b = 32%nat -> length a' = 32%nat -> length b' = 32%nat ->
  setup_transcript a b id = setup_transcript a' b' id' -> a = a' /\ b = b' /\ id = id'.
Proof. exact setup_transcript_inj. Qed.
Print Assumptions C42_code_transcript_binds.
Example C42_example :
  doc_transcript [x01; x02] [x03] [x04] <> doc_transcript [x01] [x02; x03] [x04] /\
  length (setup_transcript (repeat x01 32) (repeat x02 32) (repeat x03 16)) = 112%nat.
Proof. split; [vm_compute; discriminate|reflexivity]. Qed.

(** C43. A client comes out of the handshake only if the octets received start
    with a successful Setup response whose signature verifies, under the key that
    was fetched, over the transcript of the client's key, the received key and the
    client's id; its secret is the ECDH of exactly these keys. *)
Theorem C43_accepts_only_signed : forall C E host s ses s',
  crun C E (handshake C host) s = (Some (inr ses), s') ->
  exists h pk rnd sk spub hb hs sig o, host = Some h /\
    ce_fetch E h = Some pk /\ ce_rand E = Some rnd /\ ce_gen E = Some sk /\ cs_id ses = uuid_of rnd /\
    (let q := enc_request (RqSetup (cs_id ses) (x_pub C sk)) in c_sent s' = c_sent s ++ [(q, lenN q)]) /\
    c_in s = o ++ c_in s' /\ setup_response_octets C o spub hb sig /\ hash_octet hb hs /\
    good_signature C pk hs (doc_transcript (pkix_x25519 (x_pub C sk)) (pkix_x25519 spub) (cs_id ses)) sig /\
    x_dh C sk spub = Some (cs_secret ses).
Proof. exact handshake_accepts. Qed.
Print Assumptions C43_accepts_only_signed.
(** If moreover a server (in any state a server can reach) signed that transcript,
    then the instance that signed received the client's key and id, holds a
    session with the client's secret, and stored it under the client's id. *)
Theorem C43_agreement : forall C, CryptoLaws C -> forall E h s ses s' g,
  crun C E (handshake C (Some h)) s = (Some (inr ses), s') -> reachable C g ->
  exists pk sk spub hs sig, ce_fetch E h = Some pk /\ ce_gen E = Some sk /\
    let tr := doc_transcript (pkix_x25519 (x_pub C sk)) (pkix_x25519 spub) (cs_id ses) in
    good_signature C pk hs tr sig /\
    forall i h' r, event g i (EvSign h' tr r) ->
      exists p host ssk, set_up C g p i host (cs_id ses) (x_pub C sk) ssk (cs_secret ses) /\
        event g i (EvStore (session_key C host (cs_id ses)) p true).
Proof. exact accepted_agreement. Qed.
Print Assumptions C43_agreement.
Example C43_example :
  length (cs_id ex_ses) = 16%nat /\
  fst (crun toy ex_CE (handshake toy (Some ex_name)) (cst0 (enc_response (RsSetup (x_pub toy ex_ssk) 4 [x99])))) =
    Some (inl HsSignature) /\
  fst (crun toy ex_CE (handshake toy (Some ex_name))
        (cst0 (sent_by_server (sst0 []) ex_ss))) = Some (inr ex_ses).
Proof. vm_compute. auto. Qed.

(** C44 is refuted: any other hash octet in an otherwise well-formed response
    makes Dial panic, before the signature is looked at. *)
Theorem C44_dial_never_panics_refuted : forall C E host s pk rnd sk spub sig rest h,
  c_works E -> ce_fetch E host = Some pk -> ce_rand E = Some rnd -> ce_gen E = Some sk ->
  response_ok (RsSetup spub h sig) -> c_in s = enc_response (RsSetup spub h sig) ++ rest ->
  h <> 2 /\ h <> 3 /\ h <> 4 ->
  fst (crun C E (handshake C (Some host)) s) = None.
Proof. exact handshake_panics. Qed.
Print Assumptions C44_dial_never_panics_refuted.
Example C44_example : response_ok (RsSetup (x_pub toy ex_ssk) 1 [x99]) /\
  fst (crun toy ex_CE (handshake toy (Some ex_name)) (cst0 (enc_response (RsSetup (x_pub toy ex_ssk) 1 [x99])))) = None.
Proof. split; [repeat split; try discriminate; reflexivity|vm_compute; reflexivity]. Qed.
(** What holds: this, and a key fetcher returning an unusable key, are the only
    causes of a panic. Missing: their absence. *)
Theorem C44_panic_causes_partial : forall C E host s s', crun C E (handshake C host) s = (None, s') ->
  exists h pk o spub hb sig, host = Some h /\ ce_fetch E h = Some pk /\
    c_in s = o ++ c_in s' /\ setup_response_octets C o spub hb sig /\
    ((forall hs, ~ hash_octet hb hs) \/
     pk = PkNilRSA \/ pk = PkNilECDSA \/ pk = PkNilEd25519 \/ exists k, pk = PkEd25519 k /\ length k <> 32%nat).
Proof. exact handshake_panic_causes. Qed.
Print Assumptions C44_panic_causes_partial.

(** C45. Handshake over an undisturbed connection, whatever sessions the server
    already has: both sides end up with the same secret and id. *)
Theorem C45_key_agreement : forall C CE SE chost host csk rnd ssk, CryptoLaws C ->
  undisturbed C CE SE chost host csk rnd ssk -> forall cs ss, wf ss ->
  let q := enc_request (RqSetup (uuid_of rnd) (x_pub C csk)) in
  let '(r, ss') := srun C SE (conn_body C) (set_in ss q) in
  let '(h, cs') := crun C CE (handshake C (Some host)) (c_set_in cs (sent_by_server ss ss')) in
  sent_by_client cs cs' = q /\ c_in cs' = [] /\ c_buf cs' = c_buf cs /\ c_ctr cs' = c_ctr cs /\ r = Some true /\ wf ss' /\
  exists ses, h = Some (inr ses) /\ length (cs_id ses) = 16%nat /\
    known C ss' chost (cs_id ses) = Some {| ses_secret := cs_secret ses; ses_win := new_window |}.
Proof. exact e2e_handshake. Qed.
Print Assumptions C45_key_agreement.
(** One message and its reply, after any history the counter is not refused by. *)
Theorem C45_round_trip : forall C CE SE o chost, CryptoLaws C ->
  c_works CE -> writes_all SE -> (forall i, e_quit SE i = false) -> e_host SE = Some chost -> co_reply o = true ->
  forall ses hist cs ss p n, paired C ses chost hist cs ss -> c_ctr cs + 1 < 2 ^ 64 ->
  ~ refused_after hist (c_ctr cs + 1) -> lenN p + 16 <= 2 ^ 30 ->
  (forall i, exists out, e_handler SE i true p = HOk out /\ out <> [] /\ lenN out + 16 <= 2 ^ 30) ->
  let c := c_ctr cs + 1 in
  let '(w, r, cs', ss') := round C CE SE o ses p n cs ss in
  w = Some (WrConn (lenN p + 50) false) /\
  (exists ptr, s_calls ss' = s_calls ss ++ [(ptr, c, true, p)]) /\
  (exists i out, e_handler SE i true p = HOk out /\ r = Some (RdOk (takeN n out) (lenN out <=? n)) /\ c_buf cs' = dropN n out) /\
  c_ctr cs' = c /\ c_in cs' = [] /\ wf ss' /\
  known C ss' chost (cs_id ses) = Some {| ses_secret := cs_secret ses; ses_win := snd (checks new_window (hist ++ [c])) |} /\
  forall h i, session_key C h i <> session_key C chost (cs_id ses) -> known C ss' h i = known C ss h i.
Proof. exact e2e_round. Qed.
Print Assumptions C45_round_trip.
(** Any number of messages, in order. *)
Theorem C45_conversation : forall C CE SE o chost, CryptoLaws C ->
  c_works CE -> writes_all SE -> (forall i, e_quit SE i = false) -> e_host SE = Some chost -> co_reply o = true ->
  forall ses n (f : bytes -> bytes) ps hist cs ss,
  paired C ses chost hist cs ss -> Forall (fun c => c <= c_ctr cs) hist -> c_ctr cs + lenN ps < 2 ^ 64 ->
  Forall (fun p => lenN p + 16 <= 2 ^ 30) ps ->
  (forall i p, In p ps -> e_handler SE i true p = HOk (f p) /\ f p <> [] /\ lenN (f p) + 16 <= 2 ^ 30 /\ lenN (f p) <= n) ->
  let '(rs, cs', ss') := rounds C CE SE o ses n ps cs ss in
  rs = map (fun p => Some (RdOk (f p) true)) ps /\
  map snd (s_calls ss') = map snd (s_calls ss) ++ ps /\
  exists hist', paired C ses chost hist' cs' ss' /\ Forall (fun c => c <= c_ctr cs') hist'.
Proof. exact e2e_rounds. Qed.
Print Assumptions C45_conversation.
Example C45_example :
  undisturbed toy ex_CE ex_SE ex_host ex_name ex_csk ex_rnd ex_sign_key /\
  known toy ex_ss ex_host (cs_id ex_ses) = Some {| ses_secret := cs_secret ex_ses; ses_win := snd (checks new_window []) |} /\
  fst (fst (rounds toy ex_CE ex_SE ex_opts ex_ses 100 [[x41]; []; [x42; x43]] (cst0 []) ex_ss)) =
  [Some (RdOk [x41; x21] true); Some (RdOk [x21] true); Some (RdOk [x42; x43; x21] true)].
Proof. split; [exact ex_undisturbed|]. vm_compute. auto. Qed.

(** C46. Reads with buffers of sizes [ns] return the reply's consecutive pieces,
    io.EOF with the piece that ends it; nothing else of the stream is consumed. *)
Theorem C46_pieces : forall C, CryptoLaws C -> forall E o ses ns s oc rest key m,
  c_works E -> c_buf s = [] -> c_in s = oc ++ rest -> client_gcm C (cs_secret ses) = Some key -> m <> [] ->
  process_response_octets oc (c_last s) (gcm_seal C key (x01 :: repeat x00 3 ++ be_enc 8 (c_last s)) m) ->
  ns <> [] -> total (removelast ns) < lenN m ->
  exists s', reads C E o ses ns s = (map (fun x => Some (RdOk (fst x) (snd x))) (chop ns m), s') /\
    c_in s' = rest /\ c_buf s' = dropN (total ns) m /\
    (c_sent s' = c_sent s /\ c_ctr s' = c_ctr s /\ c_last s' = c_last s /\ c_seals s' = c_seals s).
Proof. exact reads_fresh. Qed.
Print Assumptions C46_pieces.
Theorem C46_pieces_make_the_reply : forall ns m, concat (map fst (chop ns m)) ++ dropN (total ns) m = m.
Proof. exact chop_concat. Qed.
Print Assumptions C46_pieces_make_the_reply.
Example C46_example :
  let m := [x01; x02; x03; x04; x05] in
  process_response_octets (ex_reply m) 1 (gcm_seal toy ex_ckey (gcm_nonce dir_s2c 1) m) /\
  fst (reads toy ex_CE ex_opts ex_ses [2; 0; 3] (ex_cs (ex_reply m ++ [xff]))) =
  [Some (RdOk [x01; x02] false); Some (RdOk [] false); Some (RdOk [x03; x04; x05] true)].
Proof. split; [apply ex_reply_octets; discriminate|vm_compute; reflexivity]. Qed.

(** C47 is refuted: an empty reply is an error other than io.EOF for every
    buffer but an empty one. *)
Theorem C47_empty_reply_is_eof_refuted : forall C, CryptoLaws C -> forall E o ses n s oc rest key,
  c_works E -> c_buf s = [] -> c_in s = oc ++ rest -> client_gcm C (cs_secret ses) = Some key ->
  process_response_octets oc (c_last s) (gcm_seal C key (x01 :: repeat x00 3 ++ be_enc 8 (c_last s)) []) ->
  fst (crun C E (client_read C o ses n) s) = Some (if n =? 0 then RdOk [] true else RdErr RdBuffer).
Proof. exact empty_reply. Qed.
Print Assumptions C47_empty_reply_is_eof_refuted.
Example C47_example :
  process_response_octets (ex_reply []) 1 (gcm_seal toy ex_ckey (gcm_nonce dir_s2c 1) []) /\
  fst (crun toy ex_CE (client_read toy ex_opts ex_ses 512) (ex_cs (ex_reply []))) = Some (RdErr RdBuffer).
Proof. split; [apply ex_reply_octets; discriminate|vm_compute; reflexivity]. Qed.

(** C49 is refuted: the same reply twice on the stream is delivered twice. *)
Theorem C49_reply_at_most_once_refuted : forall C, CryptoLaws C -> forall E o ses n s oc rest key m,
  c_works E -> c_buf s = [] -> c_in s = oc ++ oc ++ rest -> client_gcm C (cs_secret ses) = Some key ->
  process_response_octets oc (c_last s) (gcm_seal C key (x01 :: repeat x00 3 ++ be_enc 8 (c_last s)) m) ->
  m <> [] -> lenN m <= n ->
  fst (reads C E o ses [n; n] s) = [Some (RdOk m true); Some (RdOk m true)].
Proof. exact repeated_reply. Qed.
Print Assumptions C49_reply_at_most_once_refuted.
(** What holds: a reply to any other request than the last is refused. Missing:
    a copy of the reply to the last request. *)
Theorem C49_other_reply_refused_partial : forall C, CryptoLaws C -> forall E o ses n s oc rest c ct,
  c_works E -> c_buf s = [] -> c_in s = oc ++ rest -> process_response_octets oc c ct -> c <> c_last s ->
  let '(r, s') := crun C E (client_read C o ses n) s in
  r = Some (RdErr RdCounter) /\ c_in s' = rest /\ c_buf s' = [].
Proof. exact stale_reply. Qed.
Print Assumptions C49_other_reply_refused_partial.
Example C49_example :
  fst (reads toy ex_CE ex_opts ex_ses [9; 9] (ex_cs (ex_reply [x41] ++ ex_reply [x41]))) =
  [Some (RdOk [x41] true); Some (RdOk [x41] true)].
Proof. vm_compute. reflexivity. Qed.

(** C50 is refuted: every Write that transmits everything returns len(p) + 50. *)
Theorem C50_write_reports_len_refuted : forall C, CryptoLaws C -> forall E o ses p s,
  c_works E -> length (cs_id ses) = 16%nat -> (c_ctr s + 1) mod 2 ^ 64 <> 0 ->
  fst (crun C E (client_write C o ses p) s) = Some (WrConn (lenN p + 50) false).
Proof. exact write_reports. Qed.
Print Assumptions C50_write_reports_len_refuted.
Example C50_example : fst (crun toy ex_CE (client_write toy ex_opts ex_ses [x41; x42]) (cst0 [])) = Some (WrConn 52 false).
Proof. vm_compute. reflexivity. Qed.
