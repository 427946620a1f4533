(** Properties C99, C100, C106: a client in the hands of Go's io package, and
    fetching a key over the protocol. *)
From Verif Require Import Bytes Parser Crypto Kdf Wire WireSeq Toy Replay Server ServerSeq SpecServer ServerExamples
  Keys Client ClientSeq SpecClient ClientProofs SpecE2E ClientExamples Usage UsageProofs.

(** C99. io.ReadAll returns the reply, whatever room it gives to each Read, and
    leaves nothing of it behind. *)
Theorem C99_read_all : forall C, CryptoLaws C -> forall E o ses size k s oc rest key m,
  c_works E -> c_buf s = [] -> c_in s = oc ++ rest -> client_gcm C (cs_secret ses) = Some key -> m <> [] ->
  process_response_octets oc (c_last s) (gcm_seal C key (x01 :: repeat x00 3 ++ be_enc 8 (c_last s)) m) ->
  (forall i, 0 < size i) -> (length m <= k)%nat ->
  exists s', crun C E (read_all C o ses size k []) s = (Some (Some (m, None)), s') /\
    c_in s' = rest /\ c_buf s' = [] /\
    (c_sent s' = c_sent s /\ c_ctr s' = c_ctr s /\ c_last s' = c_last s /\ c_seals s' = c_seals s).
Proof. exact read_all_fresh. Qed.
Print Assumptions C99_read_all.
(** io.ReadFull of [n] octets returns the first [n] of the reply and keeps the
    others for later Reads; io.ErrUnexpectedEOF exactly if there are fewer. *)
Theorem C99_read_full : forall C, CryptoLaws C -> forall E o ses n k s oc rest key m,
  c_works E -> c_buf s = [] -> c_in s = oc ++ rest -> client_gcm C (cs_secret ses) = Some key -> m <> [] ->
  process_response_octets oc (c_last s) (gcm_seal C key (x01 :: repeat x00 3 ++ be_enc 8 (c_last s)) m) ->
  0 < n ->
  exists s', crun C E (read_full C o ses n (S k) []) s =
      (Some (Some (takeN n m, if n <=? lenN m then None else Some FullUnexpected)), s') /\
    c_in s' = rest /\ c_buf s' = dropN n m /\
    (c_sent s' = c_sent s /\ c_ctr s' = c_ctr s /\ c_last s' = c_last s /\ c_seals s' = c_seals s).
Proof. exact read_full_fresh. Qed.
Print Assumptions C99_read_full.
Example C99_example :
  process_response_octets (ex_reply [x61; x62; x63]) 1 (gcm_seal toy ex_ckey (x01 :: repeat x00 3 ++ be_enc 8 1) [x61; x62; x63]) /\
  fst (crun toy ex_CE (read_all toy ex_opts ex_ses (fun i => 1 + N.of_nat (i mod 2)) 3 []) (ex_cs (ex_reply [x61; x62; x63] ++ [xff])))
  = Some (Some ([x61; x62; x63], None)) /\
  fst (crun toy ex_CE (read_full toy ex_opts ex_ses 2 1 []) (ex_cs (ex_reply [x61; x62; x63]))) = Some (Some ([x61; x62], None)) /\
  fst (crun toy ex_CE (read_full toy ex_opts ex_ses 4 1 []) (ex_cs (ex_reply [x61; x62; x63])))
  = Some (Some ([x61; x62; x63], Some FullUnexpected)).
Proof. split; [apply ex_reply_octets; vm_compute; discriminate|]. vm_compute. auto. Qed.

(** C100. Refuted: io.Copy to a working client always fails after its first
    chunk, claiming nothing was written though the request was sent. *)
Theorem C100_copy_refuted : forall C, CryptoLaws C -> forall E o ses p ps s,
  c_works E -> length (cs_id ses) = 16%nat -> c_ctr s + 1 < 2 ^ 64 ->
  let '(r, s') := crun C E (copy_to C o ses (p :: ps) 0) s in
  r = Some (0, Some CopyInvalid) /\
  exists ct, let q := enc_request (RqProcess (cs_id ses) (c_ctr s + 1) ct (co_reply o)) in
    c_sent s' = c_sent s ++ [(q, lenN q)].
Proof. exact copy_fails. Qed.
Print Assumptions C100_copy_refuted.
Example C100_example : c_works ex_CE /\ length (cs_id ex_ses) = 16%nat /\
  fst (crun toy ex_CE (copy_to toy ex_opts ex_ses [[x41; x42]] 0) (cst0 [])) = Some (0, Some CopyInvalid).
Proof. split; [exact ex_c_works|]. vm_compute. auto. Qed.

(** C106. Between a working client and server, Fetch returns the key that the
    server's key manager names, if it survives PKIX encoding; it costs one request
    and disturbs no session. *)
Theorem C106_fetch_protocol : forall C CE SE cs ss alg pk raw,
  c_works CE -> writes_all SE -> (forall i, e_quit SE i = false) -> (forall i, e_fetch SE i = KOk (alg, pk)) ->
  pkix_marshal C pk = Some raw -> lenN raw <= 2 ^ 16 -> alg < 256 ->
  let q := enc_request RqFetchKey in
  let '(r, ss') := srun C SE (conn_body C) (set_in ss q) in
  let '(x, cs') := crun C CE (fetch_protocol C) (c_set_in cs (sent_by_server ss ss')) in
  sent_by_client cs cs' = q /\ r = Some true /\ same_sessions C ss ss' /\ no_calls ss ss' /\ c_in cs' = [] /\
  x = Some (match pkix_parse C raw with Some k => inr k | None => inl FkKey end).
Proof. exact e2e_fetch_key. Qed.
Print Assumptions C106_fetch_protocol.
Example C106_example :
  (exists raw, pkix_marshal toy (PkEd25519 (ed_pub toy [x07])) = Some raw /\ lenN raw = 33 /\
     pkix_parse toy raw = Some (PkEd25519 (ed_pub toy [x07]))) /\
  let ss' := snd (srun toy ex_SE (conn_body toy) (set_in ex_ss (enc_request RqFetchKey))) in
  fst (crun toy ex_CE (fetch_protocol toy) (cst0 (sent_by_server ex_ss ss'))) = Some (inr (PkEd25519 (ed_pub toy [x07]))).
Proof. split; [eexists|]; vm_compute; auto. Qed.
