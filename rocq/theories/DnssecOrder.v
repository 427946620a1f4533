(** Lemmas for C169: the records of an answer in any order. *)
From Coq Require Import Strings.String Permutation.
From Verif Require Import Bytes Crypto Kdf Server Dnssec SpecDnssec DnssecThms PartialProofs2.

Lemma moved_first answers s alg raw pk : In s answers -> zsk s alg raw -> material alg raw pk ->
  exists order, Permutation order answers /\ doh_retrieve (DohAnswer 200 (Some (true, order))) = KOk pk.
Proof.
  intros Is Z M. destruct (in_split _ _ Is) as (pre & post & ->).
  exists (s :: pre ++ post). split; [apply Permutation_middle|].
  apply doh_selects. exists [], s, (pre ++ post). split; [reflexivity|]. split; [|intros x k []].
  red. rewrite (parse_zsk _ _ _ Z). apply decode_material, M.
Qed.

Lemma built_zsk pk s : carries pk -> build_dnskey pk = KOk s -> exists alg raw, zsk s alg raw /\ material alg raw pk.
Proof.
  intros Hc B. destruct (dnskey_round_trip pk Hc) as (s' & B' & P). assert (s' = s) by congruence. subst s'.
  apply parse_key_iff; [|exact P]. intros K; destruct K as [K | [K | K]]; subst pk; destruct Hc.
Qed.

Theorem other_key_first answers pk s s' alg raw pk' : carries pk -> build_dnskey pk = KOk s -> In s answers ->
  In s' answers -> zsk s' alg raw -> material alg raw pk' ->
  (exists order, Permutation order answers /\ doh_retrieve (DohAnswer 200 (Some (true, order))) = KOk pk) /\
  (exists order, Permutation order answers /\ doh_retrieve (DohAnswer 200 (Some (true, order))) = KOk pk').
Proof.
  intros Hc B Is Is' Z M. destruct (built_zsk pk s Hc B) as (a & r & Zs & Ms).
  split; [exact (moved_first _ _ _ _ _ Is Zs Ms)|exact (moved_first _ _ _ _ _ Is' Z M)].
Qed.

Theorem any_order answers order pk s : carries pk -> build_dnskey pk = KOk s -> In s answers ->
  (forall x alg raw, In x answers -> zsk x alg raw -> material alg raw pk) ->
  Permutation order answers -> doh_retrieve (DohAnswer 200 (Some (true, order))) = KOk pk.
Proof.
  intros Hc B Is All Pm. destruct (built_zsk pk s Hc B) as (a & r & Zs & Ms).
  assert (All' : forall x alg raw, In x order -> zsk x alg raw -> material alg raw pk)
    by (intros x alg raw Ix; apply All; exact (Permutation_in _ Pm Ix)).
  destruct (first_usable order s a r pk) as (pre & x & post & b & q & k & -> & Zx & Mx & _ & D); try assumption.
  - exact (Permutation_in _ (Permutation_sym Pm) Is).
  - intros x b q Ix Zx. exists pk. eauto.
  - rewrite D. f_equal. pose proof (All' x b q (in_elt _ _ _) Zx) as Mx'.
    apply decode_material in Mx, Mx'. congruence.
Qed.
