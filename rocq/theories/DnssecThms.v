From Coq Require Import Strings.String.
From Verif Require Import Bytes BytesProofs Crypto Kdf Base64 Server Keys Dnssec SpecDnssec DnssecProofs.

(** What the algorithm switch of [parse_dnskey] makes of the material. *)
Definition decode_key (alg : N) (raw : bytes) : kres (option pubkey) :=
  if (alg =? 5) || (alg =? 7) || (alg =? 8) || (alg =? 10) then
    match public_key_rsa raw with
    | KOk (Some (n, e)) => KOk (Some (PkRSA n e))
    | KOk None => KOk (Some PkNilRSA)
    | KErr => KErr
    | KPanic => KPanic
    end
  else if (alg =? 13) || (alg =? 14) then
    match public_key_ecdsa raw (if alg =? 13 then P256 else P384) (if alg =? 13 then 64%nat else 96%nat) with
    | Some (c, x, y) => KOk (Some (PkECDSA c x y))
    | None => KOk (Some PkNilECDSA)
    end
  else if alg =? 15 then
    match public_key_ed25519 raw with
    | Some b => KOk (Some (PkEd25519 b))
    | None => KOk (Some PkNilEd25519)
    end
  else KErr.

Lemma alg_cases alg :
  (In alg [5; 7; 8; 10] /\ ((alg =? 5) || (alg =? 7) || (alg =? 8) || (alg =? 10)) = true) \/
  (((alg =? 5) || (alg =? 7) || (alg =? 8) || (alg =? 10)) = false /\
   (alg = 13 \/ alg = 14 \/ alg = 15 \/
    (~ supported alg /\ ((alg =? 13) || (alg =? 14)) = false /\ (alg =? 15) = false))).
Proof.
  unfold supported. cbn [In].
  destruct (N.eqb_spec alg 5), (N.eqb_spec alg 7), (N.eqb_spec alg 8), (N.eqb_spec alg 10); cbn [orb];
    try (left; split; [intuition congruence|reflexivity]).
  right. split; [reflexivity|]. destruct (N.eqb_spec alg 13), (N.eqb_spec alg 14), (N.eqb_spec alg 15); auto.
  do 3 right. split; [intuition congruence|auto].
Qed.

Lemma ecdsa_ok raw c k size : size = (k + k)%nat ->
  public_key_ecdsa raw c size =
    if (length raw =? size)%nat then Some (c, be_dec (firstn k raw), be_dec (skipn k raw)) else None.
Proof.
  intros ->. unfold public_key_ecdsa. destruct (Nat.eqb_spec (length raw) (k + k)) as [E|]; [|reflexivity].
  replace (length raw / 2)%nat with k; [reflexivity|]. rewrite E. replace (k + k)%nat with (k * 2)%nat by lia.
  symmetry. apply Nat.div_mul. discriminate.
Qed.

(** The decoder returns a key exactly for well-formed material, an interface
    holding nil for any other, and an error for other algorithms. *)
Lemma decode_key_spec alg raw :
  (supported alg -> exists pk, decode_key alg raw = KOk (Some pk) /\ (material alg raw pk \/ nil_key pk)) /\
  (~ supported alg -> decode_key alg raw = KErr).
Proof.
  unfold decode_key. destruct (alg_cases alg) as [[I ->]|[-> [->|[->|[->|[U [-> ->]]]]]]].
  - split; [|intros U; exfalso; apply U; unfold supported; cbn in I |- *; tauto].
    intros _. destruct (rsa_defined raw) as [o H]. rewrite H. destruct o as [[n e]|].
    + eexists. split; [reflexivity|]. left. apply rsa_ok in H as (hdr & eb & mb & -> & Hh & A & B & D & F & G & -> & ->).
      apply M_rsa; auto.
    + eexists. split; [reflexivity|]. right. unfold nil_key. auto.
  - split; [|intros U; exfalso; apply U; unfold supported; cbn; tauto]. intros _. cbn -[public_key_ecdsa].
    rewrite (ecdsa_ok _ _ 32 64 eq_refl). destruct (Nat.eqb_spec (length raw) 64) as [E|].
    + eexists. split; [reflexivity|]. left. rewrite <- (firstn_skipn 32 raw) at 1. apply M_p256.
      * rewrite firstn_length. lia.
      * rewrite skipn_length. lia.
    + eexists. split; [reflexivity|]. right. unfold nil_key. auto.
  - split; [|intros U; exfalso; apply U; unfold supported; cbn; tauto]. intros _. cbn -[public_key_ecdsa].
    rewrite (ecdsa_ok _ _ 48 96 eq_refl). destruct (Nat.eqb_spec (length raw) 96) as [E|].
    + eexists. split; [reflexivity|]. left. rewrite <- (firstn_skipn 48 raw) at 1. apply M_p384.
      * rewrite firstn_length. lia.
      * rewrite skipn_length. lia.
    + eexists. split; [reflexivity|]. right. unfold nil_key. auto.
  - split; [|intros U; exfalso; apply U; unfold supported; cbn; tauto]. intros _. cbn -[public_key_ed25519].
    unfold public_key_ed25519. destruct (Nat.eqb_spec (length raw) 32) as [E|].
    + eexists. split; [reflexivity|]. left. apply M_ed25519. exact E.
    + eexists. split; [reflexivity|]. right. unfold nil_key. auto.
  - split; [intros S; contradiction|reflexivity].
Qed.

Lemma material_supported alg raw pk : material alg raw pk -> supported alg.
Proof. unfold supported. destruct 1; cbn in *; tauto. Qed.
Lemma material_not_nil alg raw pk : material alg raw pk -> ~ nil_key pk.
Proof. unfold nil_key. destruct 1; intuition congruence. Qed.
Lemma decode_material alg raw pk : material alg raw pk -> decode_key alg raw = KOk (Some pk).
Proof.
  unfold decode_key. destruct 1 as [alg hdr eb mb I Hh A B D F G|xb yb Hx Hy|xb yb Hx Hy|k Hk].
  - destruct (alg_cases alg) as [[_ ->]|[E _]].
    + assert (public_key_rsa (hdr ++ eb ++ mb) = KOk (Some (be_dec mb, be_dec eb))) as ->; [|reflexivity].
      apply rsa_ok. exists hdr, eb, mb. tauto.
    + exfalso. cbn in I. destruct I as [<-|[<-|[<-|[<-|[]]]]]; discriminate.
  - cbn -[public_key_ecdsa]. rewrite (ecdsa_ok _ _ 32 64 eq_refl), app_length, Hx, Hy. cbn [Nat.add Nat.eqb].
    rewrite <- Hx. rewrite firstn_app_exact, skipn_app_exact. reflexivity.
  - cbn -[public_key_ecdsa]. rewrite (ecdsa_ok _ _ 48 96 eq_refl), app_length, Hx, Hy. cbn [Nat.add Nat.eqb].
    rewrite <- Hx. rewrite firstn_app_exact, skipn_app_exact. reflexivity.
  - cbn -[public_key_ed25519]. unfold public_key_ed25519. rewrite Hk. reflexivity.
Qed.

(** [parse_dnskey] through its fields. *)
Lemma parse_fields s f p a k : fields s f p a k ->
  parse_dnskey s =
    match parse_uint 16 f with
    | None => KErr
    | Some flags =>
        if negb (flags =? 256) then KOk None else
        match parse_uint 8 p with
        | None => KErr
        | Some protocol =>
            if negb (protocol =? 3) then KErr else
            match parse_uint 8 a with
            | None => KErr
            | Some alg => match b64_decode k with None => KErr | Some raw => decode_key alg raw end
            end
        end
    end.
Proof. intros H. apply split_fields in H. unfold parse_dnskey. rewrite H. reflexivity. Qed.
Lemma parse_no_fields s : (forall f p a k, ~ fields s f p a k) -> parse_dnskey s = KErr.
Proof.
  intros H. unfold parse_dnskey. destruct (split_on x20 s) as [|f [|p [|a [|k [|z l]]]]] eqn:E; try reflexivity.
  apply split_fields in E. destruct (H _ _ _ _ E).
Qed.
Lemma fields_dec s : (exists f p a k, fields s f p a k) \/ (forall f p a k, ~ fields s f p a k).
Proof.
  destruct (split_on x20 s) as [|f [|p [|a [|k [|z l]]]]] eqn:E;
    try (right; intros f' p' a' k' H; apply split_fields in H; congruence).
  left. exists f, p, a, k. apply split_fields. exact E.
Qed.

Lemma supported_lt alg : supported alg -> alg < 2 ^ 8.
Proof. unfold supported. cbn [In]. intuition (subst; reflexivity). Qed.
Lemma parse_zsk s alg raw : zsk s alg raw -> parse_dnskey s = decode_key alg raw.
Proof.
  intros (f & p & a & k & H & Hf & Hp & Ha & Hs & Hk). rewrite (parse_fields _ _ _ _ _ H).
  rewrite (proj2 (parse_uint_spec 16 f 256) (conj Hf eq_refl)).
  rewrite (proj2 (parse_uint_spec 8 p 3) (conj Hp eq_refl)).
  rewrite (proj2 (parse_uint_spec 8 a alg) (conj Ha (supported_lt _ Hs))), (proj2 (decode_iff k raw) Hk). reflexivity.
Qed.
Lemma parse_cases s :
  (exists alg raw, zsk s alg raw) \/ (other_flags s /\ parse_dnskey s = KOk None) \/
  (parse_dnskey s = KErr /\ ~ other_flags s /\ forall alg raw, ~ zsk s alg raw).
Proof.
  destruct (fields_dec s) as [(f & p & a & k & H)|H].
  2:{ right. right. split; [apply parse_no_fields, H|]. split.
      - intros (f & p & a & k & fl & F & _). exact (H _ _ _ _ F).
      - intros alg raw (f & p & a & k & F & _). exact (H _ _ _ _ F). }
  assert (U : forall f' p' a' k', fields s f' p' a' k' -> f' = f /\ p' = p /\ a' = a /\ k' = k).
  { intros f' p' a' k' H'. apply split_fields in H. apply split_fields in H'. rewrite H in H'. injection H'. auto. }
  rewrite (parse_fields _ _ _ _ _ H).
  destruct (parse_uint 16 f) as [flags|] eqn:Ef.
  2:{ right. right. split; [reflexivity|]. split.
      - intros (f' & p' & a' & k' & fl & F & N & L & _). apply U in F as (-> & _).
        rewrite (proj2 (parse_uint_spec 16 f fl) (conj N L)) in Ef. discriminate.
      - intros alg raw (f' & p' & a' & k' & F & N & _). apply U in F as (-> & _).
        rewrite (proj2 (parse_uint_spec 16 f 256) (conj N eq_refl)) in Ef. discriminate. }
  destruct (N.eqb_spec flags 256) as [->|Nf]; cbn [negb].
  2:{ right. left. split; [|reflexivity]. apply parse_uint_spec in Ef as [N L]. exists f, p, a, k, flags. auto. }
  assert (~ other_flags s) as NO.
  { intros (f' & p' & a' & k' & fl & F & N & L & D). apply U in F as (-> & _).
    rewrite (proj2 (parse_uint_spec 16 f fl) (conj N L)) in Ef. congruence. }
  destruct (parse_uint 8 p) as [protocol|] eqn:Ep.
  2:{ right. right. repeat split; [exact NO|].
      intros alg raw (f' & p' & a' & k' & F & _ & N & _). apply U in F as (_ & -> & _).
      rewrite (proj2 (parse_uint_spec 8 p 3) (conj N eq_refl)) in Ep. discriminate. }
  destruct (N.eqb_spec protocol 3) as [->|Np]; cbn [negb].
  2:{ right. right. repeat split; [exact NO|].
      intros alg raw (f' & p' & a' & k' & F & _ & N & _). apply U in F as (_ & -> & _).
      rewrite (proj2 (parse_uint_spec 8 p 3) (conj N eq_refl)) in Ep. congruence. }
  destruct (parse_uint 8 a) as [alg|] eqn:Ea.
  2:{ right. right. repeat split; [exact NO|].
      intros alg raw (f' & p' & a' & k' & F & _ & _ & N & S & _). apply U in F as (_ & _ & -> & _).
      rewrite (proj2 (parse_uint_spec 8 a alg) (conj N (supported_lt _ S))) in Ea. discriminate. }
  destruct (b64_decode k) as [raw|] eqn:Ek.
  2:{ right. right. repeat split; [exact NO|].
      intros alg' raw (f' & p' & a' & k' & F & _ & _ & N & S & B). apply U in F as (_ & _ & _ & ->).
      apply decode_iff in B. congruence. }
  assert (supported alg \/ ~ supported alg) as [S|S].
  { unfold supported. destruct (in_dec N.eq_dec alg [5; 7; 8; 10; 13; 14; 15]); auto. }
  - left. exists alg, raw, f, p, a, k. apply decode_iff in Ek. apply parse_uint_spec in Ef as [? _], Ep as [? _], Ea as [? _]. tauto.
  - right. right. rewrite (proj2 (decode_key_spec alg raw) S). repeat split; [exact NO|].
    intros alg' raw' (f' & p' & a' & k' & F & _ & _ & N & S' & _). apply U in F as (_ & _ & -> & _).
    rewrite (proj2 (parse_uint_spec 8 a alg') (conj N (supported_lt _ S'))) in Ea. congruence.
Qed.

Theorem parse_key_iff s pk : ~ nil_key pk ->
  (parse_dnskey s = KOk (Some pk) <-> exists alg raw, zsk s alg raw /\ material alg raw pk).
Proof.
  intros NN. split.
  - intros H. destruct (parse_cases s) as [(alg & raw & Z)|[[_ E]|[E _]]]; try congruence.
    exists alg, raw. split; [exact Z|]. rewrite (parse_zsk _ _ _ Z) in H.
    destruct (proj1 (decode_key_spec alg raw)) as (pk' & E & [M|K]); [destruct Z as (?&?&?&?&?); tauto|congruence|].
    exfalso. congruence.
  - intros (alg & raw & Z & M). rewrite (parse_zsk _ _ _ Z). apply decode_material, M.
Qed.
Theorem parse_nil_iff s : parse_dnskey s = KOk None <-> other_flags s.
Proof.
  destruct (parse_cases s) as [(alg & raw & Z)|[[O E]|(E & NO & _)]].
  - split.
    + rewrite (parse_zsk _ _ _ Z). destruct (proj1 (decode_key_spec alg raw)) as (pk & -> & _); [|discriminate].
      destruct Z as (?&?&?&?&?); tauto.
    + destruct Z as (f & p & a & k & F & N & _). intros (f' & p' & a' & k' & fl & F' & N' & L & D).
      apply split_fields in F. apply split_fields in F'. rewrite F in F'. injection F' as -> _ _ _.
      pose proof (proj2 (parse_uint_spec 16 f' 256) (conj N eq_refl)).
      pose proof (proj2 (parse_uint_spec 16 f' fl) (conj N' L)). congruence.
  - tauto.
  - split; [congruence|contradiction].
Qed.
Theorem parse_err_iff s : parse_dnskey s = KErr <-> ~ other_flags s /\ forall alg raw, ~ zsk s alg raw.
Proof.
  destruct (parse_cases s) as [(alg & raw & Z)|[[O E]|(E & NO & NZ)]].
  - split.
    + rewrite (parse_zsk _ _ _ Z). destruct (proj1 (decode_key_spec alg raw)) as (pk & -> & _); [|discriminate].
      destruct Z as (?&?&?&?&?); tauto.
    + intros [_ H]. destruct (H _ _ Z).
  - split; [congruence|tauto].
  - tauto.
Qed.
(** Malformed material is reported as success with a nil key. *)
Theorem parse_malformed s alg raw : zsk s alg raw -> (forall pk, ~ material alg raw pk) ->
  exists pk, parse_dnskey s = KOk (Some pk) /\ nil_key pk.
Proof.
  intros Z H. rewrite (parse_zsk _ _ _ Z).
  destruct (proj1 (decode_key_spec alg raw)) as (pk & E & [M|K]); [destruct Z as (?&?&?&?&?); tauto| |eauto].
  destruct (H _ M).
Qed.
Theorem parse_no_panic s : parse_dnskey s <> KPanic.
Proof.
  destruct (parse_cases s) as [(alg & raw & Z)|[[O E]|(E & _)]]; try congruence.
  rewrite (parse_zsk _ _ _ Z). destruct (proj1 (decode_key_spec alg raw)) as (pk & E & _); [|congruence].
  destruct Z as (?&?&?&?&?); tauto.
Qed.
Theorem nil_key_panics C pk h content sig : nil_key pk ->
  h = SHA256 \/ h = SHA384 \/ h = SHA512 -> verify_signature C pk h content sig = VPanic.
Proof. intros [->|[->| ->]] [->|[->| ->]]; reflexivity. Qed.

(** * Round trip *)
Lemma pow_504 : 2 ^ 504 = 256 ^ N.of_nat 63. Proof. vm_compute. reflexivity. Qed.
Lemma pow_4096 : 2 ^ 4096 = 256 ^ N.of_nat 512. Proof. vm_compute. reflexivity. Qed.
Lemma material_carries alg raw pk : material alg raw pk -> carries pk.
Proof.
  destruct 1 as [alg hdr eb mb I Hh A B D F G|xb yb Hx Hy|xb yb Hx Hy|k Hk]; unfold carries.
  - assert (L : forall b, no_leading_zero b -> 256 ^ N.of_nat (length b - 1) <= be_dec b).
    { intros b (x & r & -> & Hx). cbn [length]. replace (S (length r) - 1)%nat with (length r) by lia.
      assert (b2n x <> 0) by (rewrite b2n_0; exact Hx).
      assert (E : forall r acc, acc * 256 ^ N.of_nat (length r) <= be_dec_acc acc r).
      { clear. induction r as [|c r IH]; intros acc; cbn [be_dec_acc length].
        - change (256 ^ N.of_nat 0) with 1. lia.
        - etransitivity; [|apply IH]. rewrite Nat2N.inj_succ, N.pow_succ_r'.
          assert (0 <= b2n c * 256 ^ N.of_nat (length r)) by lia. nia. }
      unfold be_dec. cbn [be_dec_acc]. etransitivity; [|apply E]. nia. }
    split.
    + specialize (L eb B). assert (0 < 256 ^ N.of_nat (length eb - 1)) by (apply N.neq_0_lt_0, N.pow_nonzero; discriminate). lia.
    + split; [exact D|]. rewrite pow_504, pow_4096. split.
      * etransitivity; [|apply L, G]. apply N.pow_le_mono_r; [discriminate|lia].
      * eapply N.lt_le_trans; [apply be_dec_bound|]. unfold lenN. apply N.pow_le_mono_r; [discriminate|lia].
  - replace (2 ^ 256) with (256 ^ N.of_nat 32) by (vm_compute; reflexivity).
    pose proof (be_dec_bound xb) as Bx. pose proof (be_dec_bound yb) as By. unfold lenN in Bx, By.
    rewrite Hx in Bx. rewrite Hy in By. auto.
  - replace (2 ^ 384) with (256 ^ N.of_nat 48) by (vm_compute; reflexivity).
    pose proof (be_dec_bound xb) as Bx. pose proof (be_dec_bound yb) as By. unfold lenN in Bx, By.
    rewrite Hx in Bx. rewrite Hy in By. auto.
  - exact Hk.
Qed.

Lemma record_zsk alg material : In alg [10; 13; 14; 15] -> zsk (record_text alg material) alg material.
Proof.
  intros I. exists (str "256"), (str "3"), [n2b (48 + alg / 10); n2b (48 + alg mod 10)], (base64 material).
  assert (numeral (str "256") 256) as N1 by (apply numeral_digits; split; [discriminate|reflexivity]).
  assert (numeral (str "3") 3) as N2 by (apply numeral_digits; split; [discriminate|reflexivity]).
  split.
  - repeat split; try apply base64_spaceless;
      cbn in I; destruct I as [<-|[<-|[<-|[<-|[]]]]]; unfold spaceless; cbn; intuition discriminate.
  - repeat split; auto.
    + apply numeral_digits. split; [discriminate|].
      cbn in I; destruct I as [<-|[<-|[<-|[<-|[]]]]]; reflexivity.
    + unfold supported. cbn in *. tauto.
    + apply decode_iff, b64_decode_base64.
Qed.

Lemma build_material pk : carries pk -> exists alg raw,
  build_dnskey pk = KOk (record_text alg raw) /\ In alg [10; 13; 14; 15] /\ material alg raw pk.
Proof.
  destruct pk as [k|n e|c x y|k| | | |]; try solve [intros []].
  - intros (He & He' & Hn & Hn'). exists 10, (exponent_to_buf e ++ big_bytes n). cbn [build_dnskey].
    destruct (N.eqb_spec e 0); [lia|]. split; [reflexivity|]. split; [cbn; tauto|].
    assert (length (big_bytes e) <= 4)%nat as L.
    { apply big_bytes_len. eapply N.lt_trans; [exact He'|]. reflexivity. }
    unfold exponent_to_buf. replace (lenN (big_bytes e) <? 256) with true
      by (symmetry; apply N.ltb_lt; unfold lenN; lia).
    rewrite <- app_assoc. rewrite <- (big_bytes_dec n) at 2. rewrite <- (big_bytes_dec e) at 3.
    apply M_rsa; auto.
    + cbn. tauto.
    + apply big_bytes_lead. exact He.
    + rewrite big_bytes_dec. exact He'.
    + split.
      * apply big_bytes_long. rewrite <- pow_504. exact Hn.
      * apply big_bytes_len. rewrite <- pow_4096. exact Hn'.
    + apply big_bytes_lead. eapply N.lt_le_trans; [|exact Hn]. reflexivity.
  - destruct c; try solve [intros []]; intros [Hx Hy].
    + replace (2 ^ 256) with (256 ^ N.of_nat 32) in * by (vm_compute; reflexivity).
      exists 13, (curve_to_buf x y 32). cbn [build_dnskey]. split; [reflexivity|]. split; [cbn; tauto|].
      destruct (int_to_bytes_spec x 32 Hx) as [Lx Dx], (int_to_bytes_spec y 32 Hy) as [Ly Dy].
      unfold curve_to_buf. rewrite <- Dx at 2. rewrite <- Dy at 2. apply M_p256; assumption.
    + replace (2 ^ 384) with (256 ^ N.of_nat 48) in * by (vm_compute; reflexivity).
      exists 14, (curve_to_buf x y 48). cbn [build_dnskey]. split; [reflexivity|]. split; [cbn; tauto|].
      destruct (int_to_bytes_spec x 48 Hx) as [Lx Dx], (int_to_bytes_spec y 48 Hy) as [Ly Dy].
      unfold curve_to_buf. rewrite <- Dx at 2. rewrite <- Dy at 2. apply M_p384; assumption.
  - cbn [carries]. intros H. exists 15, k. cbn [build_dnskey]. rewrite H. cbn [Nat.eqb].
    split; [reflexivity|]. split; [cbn; tauto|]. apply M_ed25519, H.
Qed.

Theorem dnskey_round_trip pk : carries pk ->
  exists s, build_dnskey pk = KOk s /\ parse_dnskey s = KOk (Some pk).
Proof.
  intros H. destruct (build_material pk H) as (alg & raw & B & I & M). exists (record_text alg raw).
  split; [exact B|]. rewrite (parse_zsk _ _ _ (record_zsk alg raw I)). apply decode_material, M.
Qed.
(** Whatever parses to a key can be carried, so the bounds are exact. *)
Theorem dnskey_bounds pk s : parse_dnskey s = KOk (Some pk) -> carries pk \/ nil_key pk.
Proof.
  intros H. destruct (parse_cases s) as [(alg & raw & Z)|[[_ E]|[E _]]]; try congruence.
  rewrite (parse_zsk _ _ _ Z) in H.
  destruct (proj1 (decode_key_spec alg raw)) as (pk' & E & K); [destruct Z as (?&?&?&?&?); tauto|].
  assert (pk' = pk) as -> by congruence. destruct K as [M|K]; [left; apply (material_carries _ _ _ M)|auto].
Qed.
Theorem dnskey_unique pk pk' s : carries pk -> carries pk' ->
  build_dnskey pk = KOk s -> build_dnskey pk' = KOk s -> pk = pk'.
Proof.
  intros H H' B B'. destruct (dnskey_round_trip pk H) as (t & E & P), (dnskey_round_trip pk' H') as (t' & E' & P').
  congruence.
Qed.

(** * DNS over HTTPS *)
Definition is_key (a : bytes) (pk : pubkey) : Prop := parse_dnskey a = KOk (Some pk).

Lemma doh_loop_spec answers : forall err,
  (exists pre a post pk, answers = pre ++ a :: post /\ is_key a pk /\ (forall x k, In x pre -> ~ is_key x k) /\
     doh_loop answers err None = KOk (false, Some pk)) \/
  ((forall x k, In x answers -> ~ is_key x k) /\ exists e, doh_loop answers err None = KOk (e, None)).
Proof.
  unfold is_key. induction answers as [|a r IH]; intros err.
  - right. split; [intros x k []|]. exists err. reflexivity.
  - cbn [doh_loop]. pose proof (parse_no_panic a) as NP.
    destruct (parse_dnskey a) as [[pk|]| |] eqn:E; [| | |congruence].
    + left. exists [], a, r, pk. repeat split; [exact E|]. intros x k [].
    + destruct (IH false) as [(pre & b & post & pk & -> & H1 & H2 & H3)|(H1 & e & H2)].
      * left. exists (a :: pre), b, post, pk. repeat split; try assumption.
        intros x k [<-|I]; [congruence|apply H2, I].
      * right. split; [intros x k [<-|I]; [congruence|apply H1, I]|eauto].
    + destruct (IH true) as [(pre & b & post & pk & -> & H1 & H2 & H3)|(H1 & e & H2)].
      * left. exists (a :: pre), b, post, pk. repeat split; try assumption.
        intros x k [<-|I]; [congruence|apply H2, I].
      * right. split; [intros x k [<-|I]; [congruence|apply H1, I]|eauto].
Qed.

Lemma split_at_key (pre pre' post post' : list bytes) a a' pk pk' :
  pre ++ a :: post = pre' ++ a' :: post' -> is_key a pk -> is_key a' pk' ->
  (forall x k, In x pre -> ~ is_key x k) -> (forall x k, In x pre' -> ~ is_key x k) -> pk = pk'.
Proof.
  revert pre'. induction pre as [|x pre IH]; intros [|x' pre'] E K K' H H'; cbn [app] in E.
  - injection E as <- _. unfold is_key in *. congruence.
  - injection E as <- _. destruct (H' a pk (or_introl eq_refl) K).
  - injection E as -> _. destruct (H a' pk' (or_introl eq_refl) K').
  - injection E as <- E. apply (IH pre'); auto.
    + intros y k I. apply H. right. exact I.
    + intros y k I. apply H'. right. exact I.
Qed.

Theorem doh_selects r pk : doh_retrieve r = KOk pk <->
  exists pre a post, r = DohAnswer 200 (Some (true, pre ++ a :: post)) /\ is_key a pk /\
    (forall x k, In x pre -> ~ is_key x k).
Proof.
  split.
  - destruct r as [|status json]; cbn [doh_retrieve]; [discriminate|].
    destruct (N.eqb_spec status 200) as [->|]; cbn [negb]; [|discriminate].
    destruct json as [[ad answers]|]; [|discriminate]. destruct answers as [|a0 r0] eqn:EA; [discriminate|].
    rewrite <- EA. destruct ad; cbn [negb]; [|discriminate].
    destruct (doh_loop_spec answers false) as [(pre & a & post & k & -> & H1 & H2 & ->)|(H1 & e & ->)].
    + intros [= ->]. exists pre, a, post. auto.
    + destruct e; discriminate.
  - intros (pre & a & post & -> & K & H). cbn [doh_retrieve negb N.eqb Pos.eqb].
    destruct (pre ++ a :: post) as [|z zs] eqn:EA; [destruct pre; discriminate|]. rewrite <- EA.
    destruct (doh_loop_spec (pre ++ a :: post) false) as [(pre' & a' & post' & k & E & H1 & H2 & ->)|(H1 & e & ->)].
    + f_equal. symmetry in E. apply (split_at_key _ _ _ _ _ _ _ _ E); auto.
    + exfalso. apply (H1 a pk); [apply in_or_app; right; left; reflexivity|exact K].
Qed.
Theorem doh_otherwise_error r : (forall pk, doh_retrieve r <> KOk pk) -> doh_retrieve r = KErr.
Proof.
  intros H. destruct (doh_retrieve r) as [pk| |] eqn:E; [destruct (H pk eq_refl)|reflexivity|].
  exfalso. clear H. destruct r as [|status json]; cbn [doh_retrieve] in E; [discriminate|].
  destruct (N.eqb_spec status 200) as [->|]; cbn [negb] in E; [|discriminate].
  destruct json as [[ad answers]|]; [|discriminate]. destruct answers as [|a0 r0] eqn:EA; [discriminate|].
  rewrite <- EA in E. destruct ad; cbn [negb] in E; [|discriminate].
  destruct (doh_loop_spec answers false) as [(pre & a & post & k & -> & H1 & H2 & H3)|(H1 & e & H3)]; rewrite H3 in E;
    [discriminate|destruct e; discriminate].
Qed.

Lemma dnskey_readable pk s : sized pk -> build_dnskey pk = KOk s -> parse_dnskey s = KOk (Some pk).
Proof.
  intros Hs Hb. assert (Hc : carries pk).
  { destruct pk as [k|n e|c x y|k| | | |]; cbn [build_dnskey sized carries] in *; try discriminate.
    - destruct (N.eqb_spec e 0); [discriminate|]. destruct Hs as (H1 & H2 & H3). repeat split; try assumption. lia.
    - destruct c; try discriminate; assumption.
    - destruct (Nat.eqb_spec (length k) 32); [assumption|discriminate]. }
  destruct (dnskey_round_trip pk Hc) as (s' & B & Hp). congruence.
Qed.

(** A malformed record that comes first hides everything behind it. *)
Theorem malformed_first pre s post alg raw : zsk s alg raw -> (forall pk, ~ material alg raw pk) ->
  (forall y b q, In y pre -> ~ zsk y b q) ->
  exists pk, nil_key pk /\ doh_retrieve (DohAnswer 200 (Some (true, pre ++ s :: post))) = KOk pk.
Proof.
  intros Z M N. destruct (parse_malformed s alg raw Z M) as (pk & P & K). exists pk. split; [exact K|].
  apply doh_selects. exists pre, s, post. split; [reflexivity|]. split; [exact P|]. intros y k Iy E. red in E.
  destruct (parse_cases y) as [(b & q & Zy)|[[_ H]|[H _]]]; [exact (N _ _ _ Iy Zy)|congruence|congruence].
Qed.
