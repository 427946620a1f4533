(** Property C169: the order of DNS records. *)
From Coq Require Import Strings.String Permutation.
From Verif Require Import Bytes Crypto Kdf Server Dnssec SpecDnssec DnssecThms DnssecExamples DnssecOrder.

(** C169: it is not so that a server's key, published with BuildDNSKEY in a zone, is
    what a client finds there. The zone has signing keys of its own, and the records
    of an answer have no order: for every other zone-signing record of the answer
    there is an order in which the client takes that one for the server's key. *)
Theorem C169_order_refuted : forall answers pk s s' alg raw pk',
  carries pk -> build_dnskey pk = KOk s -> In s answers -> In s' answers -> zsk s' alg raw -> material alg raw pk' ->
  (exists order, Permutation order answers /\ doh_retrieve (DohAnswer 200 (Some (true, order))) = KOk pk) /\
  (exists order, Permutation order answers /\ doh_retrieve (DohAnswer 200 (Some (true, order))) = KOk pk').
Proof. exact other_key_first. Qed.
Print Assumptions C169_order_refuted.
Example C169_refuted_example : ex_ed <> ex_p256 /\ carries ex_ed /\ carries ex_p256 /\
  (exists alg raw, zsk (ex_text ex_p256) alg raw /\ material alg raw ex_p256) /\
  doh_retrieve (DohAnswer 200 (Some (true, [ex_text ex_ed; ex_text ex_p256]))) = KOk ex_ed /\
  doh_retrieve (DohAnswer 200 (Some (true, [ex_text ex_p256; ex_text ex_ed]))) = KOk ex_p256.
Proof.
  split; [discriminate|]. split; [reflexivity|]. split; [split; reflexivity|].
  split; [apply built_zsk; [split; reflexivity|reflexivity]|]. split; vm_compute; reflexivity.
Qed.

(** If all zone-signing records of the answer hold that key, it is found in any order,
    whatever the other records are. *)
Theorem C169_order_partial : forall answers order pk s, carries pk -> build_dnskey pk = KOk s -> In s answers ->
  (forall x alg raw, In x answers -> zsk x alg raw -> material alg raw pk) ->
  Permutation order answers -> doh_retrieve (DohAnswer 200 (Some (true, order))) = KOk pk.
Proof. exact any_order. Qed.
Print Assumptions C169_order_partial.
Example C169_example : carries ex_ed /\ build_dnskey ex_ed = KOk (ex_text ex_ed) /\
  parse_dnskey ksk = KOk None /\ parse_dnskey (str "x") = KErr /\
  Forall (fun order => doh_retrieve (DohAnswer 200 (Some (true, order))) = KOk ex_ed)
    [[ksk; str "x"; ex_text ex_ed]; [str "x"; ex_text ex_ed; ksk]; [ex_text ex_ed; str "x"; ksk]].
Proof. split; [reflexivity|]. split; [reflexivity|]. repeat constructor; vm_compute; reflexivity. Qed.
