From Coq Require Import Strings.String.
From Verif Require Import Bytes BytesProofs Crypto Kdf Base64 Server Keys Toy Dnssec SpecDnssec DnssecProofs DnssecThms.

Definition ex_rsa : pubkey := PkRSA (2 ^ 511 + 12345) 65537.
Definition ex_p256 : pubkey := PkECDSA P256 7 (2 ^ 255).
Definition ex_ed : pubkey := PkEd25519 (repeat x41 32).
Definition ex_text (pk : pubkey) : bytes := match build_dnskey pk with KOk s => s | _ => [] end.

Definition malformed_rsa : bytes := str "256 3 8 AQ==".
Definition ksk : bytes := str "257 3 8 AQ==".

Lemma material_len alg raw pk : material alg raw pk -> (32 <= length raw)%nat.
Proof. destruct 1; rewrite ?app_length; lia. Qed.
Lemma malformed_accepted : exists s, zsk s 8 [x01] /\ (forall pk, ~ material 8 [x01] pk) /\
  parse_dnskey s = KOk (Some PkNilRSA) /\
  verify_signature toy PkNilRSA SHA256 [] [] = VPanic.
Proof.
  exists malformed_rsa. split; [|split; [|split; reflexivity]].
  - exists (str "256"), (str "3"), (str "8"), (str "AQ=="). split.
    + repeat split; unfold spaceless; cbn; intuition discriminate.
    + repeat split; try (apply numeral_digits; split; [discriminate|reflexivity]).
      * unfold supported. cbn. tauto.
      * apply decode_iff. reflexivity.
  - intros pk M. apply material_len in M. cbn in M. lia.
Qed.

(** A malformed record in front of a good one hides it. *)
Lemma malformed_hides : exists good pk answers,
  parse_dnskey good = KOk (Some pk) /\ carries pk /\ In good answers /\
  doh_retrieve (DohAnswer 200 (Some (true, answers))) = KOk PkNilRSA.
Proof.
  exists (ex_text ex_ed), ex_ed, [ksk; malformed_rsa; ex_text ex_ed].
  split; [vm_compute; reflexivity|]. split; [reflexivity|]. split; [cbn; tauto|]. vm_compute. reflexivity.
Qed.
