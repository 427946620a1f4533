(** Properties C52, C53, C54, C77, C78: DNSKEY records and DNS over HTTPS. *)
From Coq Require Import Strings.String.
From Verif Require Import Bytes Crypto Kdf Server Keys Toy Dnssec SpecDnssec DnssecThms DnssecExamples.

Theorem C52_round_trip : forall pk, carries pk ->
  exists s, build_dnskey pk = KOk s /\ parse_dnskey s = KOk (Some pk).
Proof. exact dnskey_round_trip. Qed.
Print Assumptions C52_round_trip.
(** The range of keys is exactly what the parser can return. *)
Theorem C52_range_exact : forall pk s, parse_dnskey s = KOk (Some pk) -> carries pk \/ nil_key pk.
Proof. exact dnskey_bounds. Qed.
Print Assumptions C52_range_exact.
(** Whatever is built from a key with numbers in range can be read back; a key
    that no record can carry is refused. *)
Theorem C52_readable : forall pk s, sized pk -> build_dnskey pk = KOk s -> parse_dnskey s = KOk (Some pk).
Proof. exact dnskey_readable. Qed.
Print Assumptions C52_readable.
Theorem C52_records_differ : forall pk pk' s, carries pk -> carries pk' ->
  build_dnskey pk = KOk s -> build_dnskey pk' = KOk s -> pk = pk'.
Proof. exact dnskey_unique. Qed.
Print Assumptions C52_records_differ.
Example C52_example :
  carries ex_rsa /\ carries ex_p256 /\ carries ex_ed /\
  Forall (fun pk => parse_dnskey (ex_text pk) = KOk (Some pk)) [ex_rsa; ex_p256; ex_ed] /\
  ~ carries (PkRSA (2 ^ 511) (2 ^ 31)) /\ build_dnskey (PkECDSA P521 1 1) = KErr /\
  sized (PkEd25519 [x41]) /\ build_dnskey (PkEd25519 [x41]) = KErr.
Proof.
  split; [vm_compute; repeat split; (reflexivity || discriminate)|].
  split; [vm_compute; repeat split; (reflexivity || discriminate)|]. split; [reflexivity|].
  split; [repeat constructor; vm_compute; reflexivity|]. split; [|split; [reflexivity|split; [exact I|reflexivity]]].
  intros (_ & H & _). discriminate.
Qed.

(** Every record of a zone-signing key with decodable but malformed material is
    reported as success; the key is an interface holding nil. *)
Theorem C53_malformed_is_error_refuted :
  (exists s, zsk s 8 [x01] /\ (forall pk, ~ material 8 [x01] pk) /\ parse_dnskey s = KOk (Some PkNilRSA) /\
     verify_signature toy PkNilRSA SHA256 [] [] = VPanic) /\
  (forall s alg raw, zsk s alg raw -> (forall pk, ~ material alg raw pk) ->
     exists pk, parse_dnskey s = KOk (Some pk) /\ nil_key pk) /\
  (forall C pk h content sig, nil_key pk -> h = SHA256 \/ h = SHA384 \/ h = SHA512 ->
     verify_signature C pk h content sig = VPanic).
Proof. exact (conj malformed_accepted (conj parse_malformed nil_key_panics)). Qed.
Print Assumptions C53_malformed_is_error_refuted.
(** What remains true: a key that is not nil is exactly what the material says,
    (nil, nil) is exactly a record with other flags, and everything that is
    neither a zone-signing record with decodable material nor one with other
    flags is an error. *)
Theorem C53_partial : forall s,
  (forall pk, ~ nil_key pk ->
     (parse_dnskey s = KOk (Some pk) <-> exists alg raw, zsk s alg raw /\ material alg raw pk)) /\
  (parse_dnskey s = KOk None <-> other_flags s) /\
  (parse_dnskey s = KErr <-> ~ other_flags s /\ forall alg raw, ~ zsk s alg raw).
Proof. exact (fun s => conj (parse_key_iff s) (conj (parse_nil_iff s) (parse_err_iff s))). Qed.
Print Assumptions C53_partial.
Example C53_example :
  parse_dnskey (str "256 3 15 QUFBQUFBQUFBQUFBQUFBQUFBQUFBQUFBQUFBQUFBQUE=") = KOk (Some ex_ed) /\
  parse_dnskey (str "257 3 15 QUFB") = KOk None /\ parse_dnskey (str "256 3 15 QUF") = KErr /\
  parse_dnskey (str "256 3 3 QUFB") = KErr /\ parse_dnskey (str "256  3 15 QUFB") = KErr /\
  parse_dnskey (str "65536 3 15 QUFB") = KErr.
Proof. vm_compute. auto 10. Qed.

Theorem C54_selection : forall r pk, doh_retrieve r = KOk pk <->
  exists pre a post, r = DohAnswer 200 (Some (true, pre ++ a :: post)) /\
    parse_dnskey a = KOk (Some pk) /\ (forall x k, In x pre -> parse_dnskey x <> KOk (Some k)).
Proof. exact doh_selects. Qed.
Print Assumptions C54_selection.
Theorem C54_otherwise_fails : forall r, (forall pk, doh_retrieve r <> KOk pk) -> doh_retrieve r = KErr.
Proof. exact doh_otherwise_error. Qed.
Print Assumptions C54_otherwise_fails.
Example C54_example :
  doh_retrieve (DohAnswer 200 (Some (true, [ksk; str "x"; ex_text ex_ed; ex_text ex_p256]))) = KOk ex_ed /\
  doh_retrieve (DohAnswer 200 (Some (false, [ex_text ex_ed]))) = KErr /\
  doh_retrieve (DohAnswer 200 (Some (true, [ksk; str "x"]))) = KErr /\
  doh_retrieve (DohAnswer 500 (Some (true, [ex_text ex_ed]))) = KErr.
Proof. vm_compute. auto. Qed.

(** The first zone-signing record with malformed material hides all records behind
    it: what is returned is a nil key, with which every verification panics (C53). *)
Theorem C77_malformed_does_not_hide_refuted : forall pre s post alg raw, zsk s alg raw -> (forall pk, ~ material alg raw pk) ->
  (forall y b q, In y pre -> ~ zsk y b q) ->
  exists pk, nil_key pk /\ doh_retrieve (DohAnswer 200 (Some (true, pre ++ s :: post))) = KOk pk.
Proof. exact malformed_first. Qed.
Print Assumptions C77_malformed_does_not_hide_refuted.
Example C77_example : exists good pk answers,
  parse_dnskey good = KOk (Some pk) /\ carries pk /\ In good answers /\
  doh_retrieve (DohAnswer 200 (Some (true, answers))) = KOk PkNilRSA.
Proof. exact malformed_hides. Qed.

Theorem C78_parse_never_panics : forall s, parse_dnskey s <> KPanic.
Proof. exact parse_no_panic. Qed.
Print Assumptions C78_parse_never_panics.
Example C78_example : parse_dnskey (str "256 3 8 AAAE") = KOk (Some PkNilRSA) /\ parse_dnskey [] = KErr.
Proof. vm_compute. auto. Qed.
