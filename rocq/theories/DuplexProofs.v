(** Proofs about a client that reads and writes at the same time. *)
From Verif Require Import Bytes BytesProofs Parser Crypto Kdf Wire WireProofs Server Keys Client ClientSeq SpecClient ClientProofs ClientProps
  Udp Duplex SpecDuplex.

(** ** What a reader needs, whatever the writer does *)
Section wp.
Variable G : bytes -> N -> Prop.   (* what is known of the last counter when these octets are still to be read *)
Fixpoint wp {A} (p : cprog A) (rest buf : bytes) (Q : A -> bytes -> bytes -> Prop) : Prop :=
  match p with
  | CRet a => Q a rest buf
  | CPanic => False
  | CDo e k =>
      (match e in ceff R return (R -> bytes -> bytes -> Prop) -> Prop with
       | CRead n => fun w => n <= lenN rest /\ w (inr (takeN n rest)) (dropN n rest) buf
       | CCopy n => fun w => n <= lenN rest /\ w (takeN n rest, None) (dropN n rest) buf
       | CAlloc _ => fun w => w tt rest buf
       | CDeadline => fun w => w true rest buf
       | CGetLast => fun w => forall v, G rest v -> w v rest buf
       | CGetBuf => fun w => w buf rest buf
       | CSetBuf b => fun w => w tt rest b
       | _ => fun _ => False
       end) (fun r rest buf => wp (k r) rest buf Q)
  end.
Lemma wp_mono {A} (p : cprog A) : forall rest buf (Q1 Q2 : A -> bytes -> bytes -> Prop), (forall a r b, Q1 a r b -> Q2 a r b) ->
  wp p rest buf Q1 -> wp p rest buf Q2.
Proof.
  induction p as [a| |R e k IH]; cbn [wp]; intros rest buf Q1 Q2 H; [apply H|auto|].
  destruct e; auto; try (intros [X Y]; split; [exact X|]; revert Y; apply IH; exact H); try (apply IH; exact H).
  intros Y v X. apply (IH v _ _ Q1 Q2 H), Y, X.
Qed.
Lemma wp_bind {A B} (p : cprog A) (f : A -> cprog B) : forall rest buf Q,
  wp p rest buf (fun a r b => wp (f a) r b Q) -> wp (cbind p f) rest buf Q.
Proof.
  induction p as [a| |R e k IH]; cbn [wp cbind]; intros rest buf Q; auto.
  destruct e; auto; try (intros [X Y]; split; [exact X|]; apply IH, Y); try apply IH.
Qed.
End wp.
(** Less may be known of the counter as long as no octet was read. *)
Lemma wp_less {A} (G1 G2 : bytes -> N -> Prop) (p : cprog A) : forall rest buf Q,
  (forall r v, (length r <= length rest)%nat -> G2 r v -> G1 r v) -> wp G1 p rest buf Q -> wp G2 p rest buf Q.
Proof.
  assert (D : forall n (l : bytes), (length (dropN n l) <= length l)%nat).
  { intros n l. pose proof (dropN_len n l) as X. unfold lenN in X. lia. }
  induction p as [a| |R e k IH]; cbn [wp]; intros rest buf Q H; auto.
  destruct e; auto; try (intros [X Y]; split; [exact X|]; revert Y; apply IH; intros r v Hr; apply H; pose proof (D n rest); lia);
    try (apply IH; exact H).
Qed.
Lemma wp_reading {A} (G1 G2 : bytes -> N -> Prop) (p : cprog A) rest buf Q :
  (forall r v, (length r < length rest)%nat -> G2 r v -> G1 r v) ->
  match p with CDo e _ => ready e 0 = false | _ => True end -> wp G1 p rest buf Q -> wp G2 p rest buf Q.
Proof.
  assert (D : forall n (l : bytes), (0 < n)%N -> n <= lenN l -> (length (dropN n l) < length l)%nat).
  { intros n l. pose proof (dropN_len n l) as X. unfold lenN in *. lia. }
  intros H Z. destruct p as [a| |R e k]; cbn [wp]; auto.
  destruct e; cbn [ready] in Z; try discriminate; apply N.leb_gt in Z; intros [X Y]; (split; [exact X|]); revert Y; apply wp_less;
    intros r v Hr; apply H; specialize (D _ _ Z X); lia.
Qed.


Lemma wp_header G b0 s buf (Q : perr + resp_common -> bytes -> bytes -> Prop) : (forall rc, rs_success rc = (128 <=? b2n b0) -> Q (inr rc) s buf) ->
  wp G (clift parse_resp_common) (b0 :: s) buf Q.
Proof.
  intros H. unfold parse_resp_common, pcopy1. cbn [pbind clift wp]. split; [rewrite lenN_cons; lia|].
  change (b0 :: s) with ([b0] ++ s). rewrite takeN_app, dropN_app by reflexivity. cbn [pbind clift wp].
  apply H. apply resp_bit.
Qed.
Lemma wp_process G rc c ct s buf (Q : perr + process_resp -> bytes -> bytes -> Prop) : c < two64 -> lenN ct <= max_message_size ->
  (forall r, ps_counter r = c -> ps_msg r = ct -> Q (inr r) s buf) ->
  wp G (clift (parse_process_resp rc)) (be_enc 8 c ++ be_enc 8 (lenN ct) ++ ct ++ s) buf Q.
Proof.
  intros Hc Hm H. unfold parse_process_resp, pread. cbn [pbind clift wp].
  split; [rewrite lenN_app, be_enc_lenN; lia|]. rewrite takeN_app, dropN_app by apply be_enc_lenN. cbn [pbind clift wp].
  split; [rewrite lenN_app, be_enc_lenN; lia|]. rewrite takeN_app, dropN_app by apply be_enc_lenN. cbn [pbind clift wp].
  rewrite !be_dec_enc_small by (rewrite pow256_8; auto using max_msg_lt64).
  destruct (N.ltb_spec max_message_size (lenN ct)); [lia|]. unfold palloc. cbn [pbind clift wp].
  split; [rewrite lenN_app; lia|]. rewrite takeN_app, dropN_app by reflexivity. cbn [pbind clift wp].
  apply H; reflexivity.
Qed.

(** One Read when the octets of an answer are next. *)
Lemma wp_read C (L : CryptoLaws C) (G : bytes -> N -> Prop) o ses n key oc c d rest (Q : rd_result -> bytes -> bytes -> Prop) :
  client_gcm C (cs_secret ses) = Some key ->
  process_response_octets oc c (gcm_seal C key (gcm_nonce dir_s2c c) d) -> d <> [] -> lenN d <= n ->
  (G rest c -> Q (RdOk d true) rest []) -> (forall v, G rest v -> v <> c -> Q (RdErr RdCounter) rest []) ->
  wp G (client_read C o ses n) (oc ++ rest) [] Q.
Proof.
  intros K (b0 & -> & H0 & Hc & Hm) Hd Hn H1 H2. unfold client_read. apply wp_bind.
  assert (X : forall p, wp G p ((b0 :: be_enc 8 c ++ be_enc 8 (lenN (gcm_seal C key (gcm_nonce dir_s2c c) d)) ++
      gcm_seal C key (gcm_nonce dir_s2c c) d) ++ rest) [] Q ->
    wp G (if co_rto o then cdo CDeadline else CRet true) ((b0 :: be_enc 8 c ++ be_enc 8 (lenN (gcm_seal C key (gcm_nonce dir_s2c c) d)) ++
      gcm_seal C key (gcm_nonce dir_s2c c) d) ++ rest) []
      (fun ok r b => wp G (if negb ok then CRet (RdErr RdDeadline) else p) r b Q)).
  { intros p Hp. destruct (co_rto o); exact Hp. }
  apply X. clear X. cbn [cbind cdo wp]. change (0 <? lenN []) with false. cbv iota.
  apply wp_bind. cbn [app]. apply wp_header. intros rc ->. destruct (N.leb_spec 128 (b2n b0)); [|lia]. cbn [negb].
  apply wp_bind. rewrite <- !app_assoc. apply wp_process; [exact Hc|exact Hm|]. intros r Er Em. rewrite Er, Em.
  cbn [cbind cdo wp]. intros v Gv. destruct (N.eqb_spec c v) as [<-|Ev]; cbn [negb].
  - rewrite K, (gcm_open_seal _ L). cbn [cbind cdo wp app]. unfold read_buffered, buffer_read.
    destruct d as [|x d]; [congruence|]. cbn [cbind cdo wp]. rewrite takeN_whole, dropN_whole by exact Hn. apply H1, Gv.
  - cbn [wp]. apply (H2 v Gv). congruence.
Qed.

Lemma read_well_nil : read_well [] [].
Proof. split; [constructor|]. intros d X. discriminate. Qed.
Lemma read_well_cons d ds r rs : r = RdOk d true \/ r = RdErr RdCounter -> (ds = [] -> r = RdOk d true) ->
  read_well ds rs -> read_well (d :: ds) (r :: rs).
Proof.
  intros H1 H2 [F W]. split; [constructor; assumption|]. intros e. destruct F as [|d' r' ds rs Hd F].
  - cbn. intros X. rewrite H2 by reflexivity. congruence.
  - intros X. cbn [map last] in *. apply W. exact X.
Qed.

(** All Reads. *)
Lemma wp_loop C (L : CryptoLaws C) (G : bytes -> N -> Prop) o ses n key c ds fs :
  client_gcm C (cs_secret ses) = Some key -> answers C key c ds fs ->
  Forall (fun d => d <> [] /\ lenN d <= n) ds ->
  (forall j v, (1 <= j <= length fs)%nat -> G (concat (skipn j fs)) v -> c + N.of_nat j <= v <= c + N.of_nat (length fs)) ->
  wp G (read_loop C o ses n (length ds)) (concat fs) [] (fun rs _ _ => read_well ds rs /\
    forall i d, nth_error ds i = Some d -> (forall v, G (concat (skipn (S i) fs)) v -> v <= c + N.of_nat (S i)) ->
      nth_error rs i = Some (RdOk d true)).
Proof.
  intros K A. induction A as [c|c d ds f fs Hf A IH]; intros F HG.
  - cbn. split; [apply read_well_nil|]. intros [|i] d X; discriminate.
  - inversion F as [|? ? [Hd Hn] F']; subst. cbn [length read_loop concat]. apply wp_bind.
    specialize (IH F'). assert (HG' : forall j v, (1 <= j <= length fs)%nat -> G (concat (skipn j fs)) v ->
      c + 1 + N.of_nat j <= v <= c + 1 + N.of_nat (length fs)).
    { intros j v Hj Gv. specialize (HG (S j) v). cbn [length skipn] in HG. specialize (HG ltac:(lia) Gv). lia. }
    specialize (IH HG').
    assert (Rest : forall r, r = RdOk d true \/ r = RdErr RdCounter -> (ds = [] -> r = RdOk d true) ->
      ((forall v, G (concat fs) v -> v <= c + 1) -> r = RdOk d true) ->
      wp G (cbind (read_loop C o ses n (length ds)) (fun rs => CRet (r :: rs))) (concat fs) [] (fun rs _ _ => read_well (d :: ds) rs /\
        forall i e, nth_error (d :: ds) i = Some e -> (forall v, G (concat (skipn (S i) (f :: fs))) v -> v <= c + N.of_nat (S i)) ->
        nth_error rs i = Some (RdOk e true))).
    { intros r H1 H2 H3. apply wp_bind. revert IH. apply wp_mono. intros rs r' b' [W N]. cbn [wp].
      split; [apply read_well_cons; assumption|]. intros [|i] e X Y; cbn [nth_error skipn] in *.
      - rewrite H3 by (intros v Gv; specialize (Y v Gv); lia). congruence.
      - apply N; [exact X|]. intros v Gv. specialize (Y v Gv). lia. }
    apply (wp_read C L G o ses n key f (c + 1) d); auto.
    intros v Gv Ev. apply Rest; auto.
    + intros ->. inversion A; subst. specialize (HG 1%nat v). cbn [length skipn] in HG.
      specialize (HG ltac:(lia) Gv). lia.
    + intros Y. specialize (Y v Gv). specialize (HG 1%nat v). cbn [length skipn] in HG. specialize (HG ltac:(lia) Gv). lia.
Qed.

(** ** What the writer does *)
Section writer.
Variables (C : Crypto) (c0 : N) (base m : nat).
(** [ns] messages were sent so far. *)
Fixpoint ww {A} (p : cprog A) (ctr last : N) (ns : nat) : Prop :=
  match p with
  | CRet _ => ns = (base + m)%nat
  | CPanic => False
  | CDo e k =>
      (match e in ceff R return (R -> N -> N -> nat -> Prop) -> Prop with
       | CDeadline => fun w => w true ctr last ns
       | CAdd => fun w => let c := (ctr + 1) mod two64 in ctr <= c /\ w c c last ns
       | CSetLast c => fun w => (c0 + N.of_nat (ns - base) <= c <= c0 + N.of_nat m /\ c <= ctr) /\ w tt ctr c ns
       | CSeal _ key nonce pt => fun w => w (gcm_seal C key nonce pt) ctr last ns
       | CWrite b => fun w => (c0 + N.of_nat (S ns - base) <= last <= c0 + N.of_nat m /\ last <= ctr) /\ w (lenN b, false) ctr last (S ns)
       | _ => fun _ => False
       end) (fun r ctr last ns => ww (k r) ctr last ns)
  end.

Lemma ww_loop (L : CryptoLaws C) o ses : forall ps ns last, (base <= ns)%nat -> (ns + length ps = base + m)%nat ->
  c0 + N.of_nat m < two64 -> ww (write_loop C o ses ps) (c0 + N.of_nat (ns - base)) last ns.
Proof.
  destruct (client_gcm_some C L (cs_secret ses)) as (key & K).
  induction ps as [|p ps IH]; intros ns last Hb Hn Hm; cbn [write_loop length] in *; [cbn; lia|].
  unfold client_write. rewrite K.
  assert (X : forall l, ww (cbind (cbind (cdo CAdd) (fun c => if c =? 0 then CRet WrExhausted else
      cbind (cdo (CSetLast c)) (fun _ => cbind (cdo (CSeal c key (gcm_nonce dir_c2s c) p)) (fun ct =>
      cbind (cdo (CWrite (enc_process_req (new_process_request (cs_id ses) c ct (co_reply o))))) (fun w =>
      CRet (WrConn (fst w) (snd w))))))) (fun r => cbind (write_loop C o ses ps) (fun rs => CRet (r :: rs))))
      (c0 + N.of_nat (ns - base)) l ns).
  { intros l. cbn [cbind cdo ww]. rewrite (N.mod_small (_ + 1)) by lia.
    split; [lia|]. destruct (N.eqb_spec (c0 + N.of_nat (ns - base) + 1) 0); [lia|]. cbn [cbind cdo ww].
    split; [lia|]. split; [lia|].
    assert (M : forall (q : cprog (list wr_result)) r a b n, ww q a b n -> ww (cbind q (fun rs => CRet (r :: rs))) a b n).
    { clear. intros q r. induction q as [x| |R e k IHq]; cbn [cbind ww]; auto. intros a b n.
      destruct e; auto; try apply IHq; intros [X Y]; (split; [exact X|]); revert Y; apply IHq. }
    apply M. replace (c0 + N.of_nat (ns - base) + 1) with (c0 + N.of_nat (S ns - base)) by lia. apply IH; lia. }
  destruct (co_wto o); [cbn [cbind cdo ww negb]; apply X|cbn [cbind negb]; apply X].
Qed.
End writer.

(** ** Both *)
Section both.
Variables (C : Crypto) (L : CryptoLaws C) (E : cenv) (W : c_works E) (o : copts) (ses : csession) (n : N) (key : bytes).
Variables (ds fs ps : list bytes) (s0 : cst).
Hypothesis K : client_gcm C (cs_secret ses) = Some key.
Hypothesis A : answers C key (c_ctr s0) ds fs.
Hypothesis HF : Forall (fun d => d <> [] /\ lenN d <= n) ds.
Hypothesis Hlen : length ps = length ds.
Hypothesis Hctr : c_ctr s0 + lenN ps < two64.
Hypothesis Hbuf : c_buf s0 = [].
Hypothesis Hin : c_in s0 = [].
Let base := length (c_sent s0).
Let m := length fs.

Lemma answers_length c : forall ds fs, answers C key c ds fs -> length ds = length fs.
Proof. intros d f X. induction X; cbn; congruence. Qed.
Lemma answers_nonempty c : forall ds fs, answers C key c ds fs -> Forall (fun f => f <> []) fs.
Proof. intros d f X. induction X as [|? ? ? ? ? (b & -> & _)]; constructor; [discriminate|assumption]. Qed.
Lemma concat_shorter l : Forall (fun f : bytes => f <> []) l -> forall i j, (i < j <= length l)%nat ->
  (length (concat (skipn j l)) < length (concat (skipn i l)))%nat.
Proof.
  induction 1 as [|f l Hf F IH]; cbn [length]; intros i j Hij; [lia|]. destruct j as [|j]; [lia|]. destruct i as [|i]; cbn [skipn].
  - cbn [concat]. rewrite app_length. destruct f as [|b f]; [congruence|]. cbn [length].
    destruct j as [|j]; [cbn [skipn]; lia|]. specialize (IH 0%nat (S j) ltac:(lia)). cbn [skipn] in *. lia.
  - apply IH. lia.
Qed.

Definition Gd (rest : bytes) (v : N) : Prop := forall j, (1 <= j <= m)%nat -> rest = concat (skipn j fs) ->
  c_ctr s0 + N.of_nat j <= v <= c_ctr s0 + N.of_nat m.
(** What is known while no message after the one with index [i] is begun. *)
Definition Gi (i : nat) (rest : bytes) (v : N) : Prop := Gd rest v /\
  (rest = concat (skipn (S i) fs) -> v <= c_ctr s0 + N.of_nat (S i)).

Definition unread (x : dup) : bytes := c_in (x_cs x) ++ x_chan x ++ concat (x_todo x).
Definition reads (G : bytes -> N -> Prop) (Q : list rd_result -> Prop) (x : dup) : Prop :=
  wp G (x_rd x) (unread x) (c_buf (x_cs x)) (fun rs _ _ => Q rs).
Record dinv (x : dup) : Prop := {
  di_wr : ww C (c_ctr s0) base m (x_wr x) (c_ctr (x_cs x)) (c_last (x_cs x)) (length (c_sent (x_cs x)));
  di_todo : x_todo x = skipn (x_ans x - base) fs;
  di_ans : (base <= x_ans x <= length (c_sent (x_cs x)))%nat;
  di_last : (base < length (c_sent (x_cs x)))%nat ->
    c_ctr s0 + N.of_nat (length (c_sent (x_cs x)) - base) <= c_last (x_cs x) <= c_ctr s0 + N.of_nat m /\
    c_last (x_cs x) <= c_ctr (x_cs x) }.

Lemma dinv_start : dinv (duplex C o ses n ps fs s0).
Proof.
  pose proof (answers_length _ _ _ A) as EL. unfold duplex. split; cbn [x_rd x_wr x_cs x_ans x_todo x_chan].
  - pose proof (ww_loop C (c_ctr s0) base m L o ses ps (length (c_sent s0)) (c_last s0)) as X.
    fold base in X |- *. rewrite Nat.sub_diag, N.add_0_r in X. apply X; unfold m; [lia|lia|]. unfold lenN in Hctr. rewrite <- EL, <- Hlen. exact Hctr.
  - fold base. rewrite Nat.sub_diag. reflexivity.
  - fold base. lia.
  - fold base. lia.
Qed.
Lemma reads_start : reads Gd (read_well ds) (duplex C o ses n ps fs s0).
Proof.
  unfold reads, unread, duplex. cbn [x_rd x_wr x_cs x_ans x_todo x_chan]. rewrite Hin, Hbuf, Hlen. cbn [app].
  eapply wp_mono; [|apply (wp_loop C L Gd o ses n key (c_ctr s0) ds fs K A HF)].
  - cbn beta. intros rs _ _ [X _]. exact X.
  - intros j v Hj Gv. apply Gv; [exact Hj|reflexivity].
Qed.
Lemma reads_start_i i d : nth_error ds i = Some d ->
  reads (Gi i) (fun rs => read_well ds rs /\ nth_error rs i = Some (RdOk d true)) (duplex C o ses n ps fs s0).
Proof.
  intros Hi. unfold reads, unread, duplex. cbn [x_rd x_wr x_cs x_ans x_todo x_chan]. rewrite Hin, Hbuf, Hlen. cbn [app].
  eapply wp_mono; [|apply (wp_loop C L (Gi i) o ses n key (c_ctr s0) ds fs K A HF)].
  - cbn beta. intros rs _ _ [X Y]. split; [exact X|]. apply Y; [exact Hi|]. intros v [_ Gv]. apply Gv. reflexivity.
  - intros j v Hj [Gv _]. apply Gv; [exact Hj|reflexivity].
Qed.

(** What a reader learns of the last counter. *)
Lemma dinv_answered x j : dinv x -> (1 <= j <= m)%nat -> unread x = concat (skipn j fs) -> (j <= x_ans x - base)%nat.
Proof.
  intros [_ T Ha Hl] Hj Er. destruct (Nat.le_gt_cases j (x_ans x - base)) as [H|H]; [exact H|]. exfalso.
  pose proof (concat_shorter fs (answers_nonempty _ _ _ A) (x_ans x - base) j ltac:(unfold m in *; lia)) as X.
  rewrite <- Er, <- T in X. unfold unread in X. rewrite !app_length in X. lia.
Qed.
Lemma dinv_G x : dinv x -> Gd (unread x) (c_last (x_cs x)).
Proof.
  intros I j Hj Er. pose proof (dinv_answered x j I Hj Er). destruct I as [_ T Ha Hl].
  specialize (Hl ltac:(lia)). lia.
Qed.
Lemma dinv_Gi i x : dinv x -> (S i <= m)%nat -> c_ctr (x_cs x) <= c_ctr s0 + N.of_nat (S i) -> Gi i (unread x) (c_last (x_cs x)).
Proof.
  intros I Hi Hc. split; [apply dinv_G, I|]. intros Er.
  pose proof (dinv_answered x (S i) I ltac:(lia) Er). destruct I as [_ T Ha Hl]. specialize (Hl ltac:(lia)). lia.
Qed.

Lemma takeN_more {X} k (a b : list X) : k <= lenN a -> takeN k (a ++ b) = takeN k a.
Proof.
  intros H. rewrite <- (takeN_dropN k a) at 1. rewrite <- app_assoc. apply takeN_app. rewrite takeN_len. lia.
Qed.
Lemma dropN_more {X} k (a b : list X) : k <= lenN a -> dropN k (a ++ b) = dropN k a ++ b.
Proof.
  intros H. rewrite <- (takeN_dropN k a) at 1. rewrite <- app_assoc. apply dropN_app. rewrite takeN_len. lia.
Qed.

Lemma dinv_move (G : bytes -> N -> Prop) Q x v y : dinv x -> G (unread x) (c_last (x_cs x)) -> reads G Q x -> dup_move C E x v = Some y ->
  dinv y /\ reads G Q y /\ c_ctr (x_cs x) <= c_ctr (x_cs y).
Proof.
  intros [Wr T Ha Hl] Gx R H. unfold reads, unread in *. destruct v as [| | |k]; cbn [dup_move] in H.
  - destruct (x_rd x) as [a| |R' e k]; [discriminate..|]. destruct (ready e _) eqn:Re; [|discriminate]. cbn [wp] in R.
    destruct e; cbn [cexec ready] in H, Re; try contradiction.
    + apply N.leb_le in Re. unfold fl_read in H. destruct (N.leb_spec n0 (lenN (c_in (x_cs x)))); [|lia].
      rewrite takeN_more, dropN_more in R by exact Re. destruct R as [_ R]. injection H as <-.
      split; [split; cbn; assumption|]. split; [exact R|cbn; lia].
    + apply N.leb_le in Re. unfold fl_copy in H. destruct (N.leb_spec n0 (lenN (c_in (x_cs x)))); [|lia].
      rewrite takeN_more, dropN_more in R by exact Re. destruct R as [_ R]. injection H as <-.
      split; [split; cbn; assumption|]. split; [exact R|cbn; lia].
    + injection H as <-. split; [split; assumption|]. split; [exact R|cbn; lia].
    + destruct W as [_ Wd]. rewrite Wd in H. injection H as <-. split; [split; assumption|]. split; [exact R|cbn; lia].
    + injection H as <-. split; [split; cbn; auto|]. split; [cbn; auto|cbn; lia].
    + injection H as <-. split; [split; assumption|]. split; [exact R|cbn; lia].
    + injection H as <-. split; [split; assumption|]. split; [exact R|cbn; lia].
  - destruct (x_wr x) as [a| |R' e k]; [discriminate..|]. cbn [ww] in Wr.
    destruct e; cbn [cexec] in H; try contradiction.
    + destruct W as [Ww _]. destruct (Ww (c_step (x_cs x)) b) as [W1 W2]. destruct (ce_write E (c_step (x_cs x)) b) as [nn er].
      cbn [fst snd] in W1, W2. subst er. rewrite N.min_r in H by exact W1. destruct Wr as [Wb Wr].
      injection H as <-. split; [split; cbn; rewrite ?app_length, ?Nat.add_1_r; auto; lia|]. split; [exact R|cbn; lia].
    + destruct W as [_ Wd]. rewrite Wd in H. injection H as <-. split; [split; assumption|]. split; [exact R|cbn; lia].
    + destruct Wr as [Wb Wr]. injection H as <-. split; [split; cbn; auto; intros X; specialize (Hl X); lia|].
      split; [exact R|cbn; lia].
    + destruct Wr as [Wb Wr]. injection H as <-. split; [split; cbn; auto|]. split; [exact R|cbn; lia].
    + injection H as <-. split; [split; assumption|]. split; [exact R|cbn; lia].
  - destruct (x_todo x) as [|f l] eqn:Et; [discriminate|]. destruct (Nat.ltb_spec (x_ans x) (length (c_sent (x_cs x)))); [|discriminate].
    injection H as <-. split; [split; cbn [x_rd x_wr x_cs x_ans x_todo x_chan]; auto; [|lia]|].
    + replace (S (x_ans x) - base)%nat with (S (x_ans x - base)) by lia.
      clear - T. revert T. generalize (x_ans x - base)%nat as i. generalize fs as l'. induction l' as [|a l' IH]; intros [|i] T; try discriminate.
      * cbn in *. congruence.
      * cbn [skipn] in T |- *. rewrite (IH i T). destruct l'; reflexivity.
    + cbn [x_rd x_cs x_chan x_todo]. cbn [concat] in R. rewrite <- app_assoc. split; [exact R|lia].
  - destruct (_ && _) eqn:Ek; [|discriminate]. injection H as <-. split; [split; cbn; auto|]. split; [|cbn; lia]. cbn.
    rewrite <- app_assoc, (app_assoc (takeN _ _)), takeN_dropN. exact R.
Qed.
Lemma dinv_run Q l : forall x y, dinv x -> reads Gd Q x -> dup_run C E l x = Some y -> dinv y /\ reads Gd Q y.
Proof.
  induction l as [|v l IH]; cbn [dup_run]; intros x y I R H; [injection H as <-; auto|].
  destruct (dup_move C E x v) as [z|] eqn:M; [|discriminate].
  destruct (dinv_move Gd Q x v z I (dinv_G x I) R M) as (Iz & Rz & _). apply (IH z y); assumption.
Qed.
(** The same as long as the message after the one with index [i] is not begun. *)
Lemma dinv_run_i Q i l : (S i <= m)%nat -> forall x y, dinv x -> reads Gd (read_well ds) x -> reads (Gi i) Q x -> dup_run C E l x = Some y ->
  c_ctr (x_cs y) <= c_ctr s0 + N.of_nat (S i) -> reads (Gi i) Q y /\ c_ctr (x_cs x) <= c_ctr (x_cs y).
Proof.
  intros Hi. assert (Mono : forall l x y, dinv x -> reads Gd (read_well ds) x -> dup_run C E l x = Some y -> c_ctr (x_cs x) <= c_ctr (x_cs y)).
  { clear l. induction l as [|v l IH]; cbn [dup_run]; intros x y I R H; [injection H as <-; lia|].
    destruct (dup_move C E x v) as [z|] eqn:M; [|discriminate].
    destruct (dinv_move Gd _ x v z I (dinv_G x I) R M) as (Iz & Rz & Hz). specialize (IH z y Iz Rz H). lia. }
  induction l as [|v l IH]; intros x y I R0 R H Hy; pose proof (Mono _ x y I R0 H) as Mx; cbn [dup_run] in H; [injection H as <-; auto|].
  destruct (dup_move C E x v) as [z|] eqn:M; [|discriminate].
  destruct (dinv_move Gd _ x v z I (dinv_G x I) R0 M) as (Iz & R0z & _).
  destruct (dinv_move (Gi i) Q x v z I (dinv_Gi i x I Hi ltac:(lia)) R M) as (_ & Rz & _).
  split; [|exact Mx]. apply (IH z y); assumption.
Qed.
(** A reader that waits has done with the answer before. *)
Lemma reads_on Q i y : (S i <= m)%nat -> unread y = concat (skipn (S i) fs) -> c_in (x_cs y) = [] -> dup_move C E y MRead = None ->
  reads (Gi i) Q y -> reads Gd Q y.
Proof.
  intros Hi Eu En Hm. unfold reads. apply wp_reading.
  - intros r v Hr Gv. split; [exact Gv|]. intros ->. rewrite Eu in Hr. lia.
  - cbn [dup_move] in Hm. destruct (x_rd y) as [a| |R e k]; auto. rewrite En in Hm. change (lenN []) with 0 in Hm.
    destruct (ready e 0); [|reflexivity]. destruct (cexec C E e (x_cs y)). discriminate.
Qed.
(** Nobody waits for ever. *)
Lemma dinv_progress Q x : dinv x -> reads Gd Q x -> (exists rs, x_rd x = CRet rs /\ Q rs) \/ exists v, dup_move C E x v <> None.
Proof.
  intros [Wr T Ha Hl] R. unfold reads, unread in R.
  destruct (x_wr x) as [wr| |R' e k] eqn:Ew; [|destruct Wr|right; exists MWrite; cbn [dup_move]; rewrite Ew; destruct (cexec C E e (x_cs x)); discriminate].
  cbn [ww] in Wr. destruct (x_todo x) as [|f l] eqn:Et.
  - destruct (x_chan x) as [|b ch] eqn:Ec.
    + destruct (x_rd x) as [rs| |R' e k] eqn:Er; [left; exists rs; split; [reflexivity|exact R]|destruct R|].
      right. exists MRead. cbn [dup_move]. rewrite Er. cbn [wp concat app] in R. rewrite app_nil_r in R.
      assert (Re : ready e (lenN (c_in (x_cs x))) = true).
      { destruct e; try reflexivity; cbn [ready]; apply N.leb_le; apply R. }
      rewrite Re. destruct (cexec C E e (x_cs x)); discriminate.
    + right. exists (MArrive 1). cbn [dup_move]. rewrite Ec, lenN_cons.
      destruct (N.ltb_spec 0 1); [|lia]. destruct (N.leb_spec 1 (1 + lenN ch)); [|lia]. discriminate.
  - right. exists MAnswer. cbn [dup_move]. rewrite Et. destruct (Nat.ltb_spec (x_ans x) (length (c_sent (x_cs x)))); [discriminate|].
    exfalso. replace (x_ans x - base)%nat with m in T by lia. unfold m in T. rewrite skipn_all in T. discriminate.
Qed.
End both.

(** No schedule goes on for ever. *)
Lemma dup_ends C E : forall x, always_ends (dup_move C E) x.
Proof.
  intros [rd wr s a todo ch]. revert wr s a todo ch.
  induction rd as [rs| |R e k IHr].
  3:{ intros wr. induction wr as [ws| |Rw ew kw IHw]; intros s a todo; revert s a.
      all: induction todo as [|f todo IHt]; intros s a ch; revert s a.
      all: induction ch as [ch IHc] using (well_founded_induction (Wf_nat.well_founded_ltof _ (@length byte))); intros s a.
      all: constructor; intros y [v Hv]; destruct v as [| | |j]; cbn [dup_move x_rd x_wr x_cs x_ans x_todo x_chan] in Hv.
      all: try discriminate.
      all: try (destruct (ready e _); [|discriminate]; destruct (cexec C E e s) as [r s']; injection Hv as <-; apply IHr).
      all: try (destruct (cexec C E ew s) as [r s']; injection Hv as <-; apply IHw).
      all: try (destruct (_ <? _)%nat; [|discriminate]; injection Hv as <-; apply IHt).
      all: destruct (0 <? j) eqn:J; [|discriminate]; destruct (j <=? lenN ch) eqn:J2; [|discriminate]; cbn [andb] in Hv; injection Hv as <-;
        apply IHc; unfold Wf_nat.ltof; apply N.ltb_lt in J; apply N.leb_le in J2;
        pose proof (dropN_len j ch) as X; unfold lenN in *; lia. }
  all: intros wr; induction wr as [ws| |Rw ew kw IHw]; intros s a todo; revert s a.
  all: induction todo as [|f todo IHt]; intros s a ch; revert s a.
  all: induction ch as [ch IHc] using (well_founded_induction (Wf_nat.well_founded_ltof _ (@length byte))); intros s a.
  all: constructor; intros y [v Hv]; destruct v as [| | |j]; cbn [dup_move x_rd x_wr x_cs x_ans x_todo x_chan] in Hv.
  all: try discriminate.
  all: try (destruct (cexec C E ew s) as [r s']; injection Hv as <-; apply IHw).
  all: try (destruct (_ <? _)%nat; [|discriminate]; injection Hv as <-; apply IHt).
  all: destruct (0 <? j) eqn:J; [|discriminate]; destruct (j <=? lenN ch) eqn:J2; [|discriminate]; cbn [andb] in Hv; injection Hv as <-;
        apply IHc; unfold Wf_nat.ltof; apply N.ltb_lt in J; apply N.leb_le in J2;
        pose proof (dropN_len j ch) as X; unfold lenN in *; lia.
Qed.

Lemma duplex_tcp C (L : CryptoLaws C) E o ses n key ds fs ps s : c_works E ->
  client_gcm C (cs_secret ses) = Some key -> answers C key (c_ctr s) ds fs ->
  Forall (fun d => d <> [] /\ lenN d <= n) ds -> length ps = length ds -> c_ctr s + lenN ps < 2 ^ 64 ->
  c_buf s = [] -> c_in s = [] ->
  let x := duplex C o ses n ps fs s in
  always_ends (dup_move C E) x /\
  forall sched y, dup_run C E sched x = Some y ->
    (exists v, dup_move C E y v <> None) \/ exists rs, x_rd y = CRet rs /\ read_well ds rs.
Proof.
  intros W K A F Hl Hc Hb Hi. cbv zeta. split; [apply dup_ends|]. intros sched y Hy.
  pose proof (dinv_start C L o ses n key ds fs ps s A Hl Hc) as I.
  pose proof (reads_start C L o ses n key ds fs ps s K A F Hl Hb Hi) as R.
  destruct (dinv_run C E W n key ds fs ps s A Hl Hc _ sched _ y I R Hy) as [Iy Ry].
  destruct (dinv_progress C E ds fs ps s Hl Hc _ y Iy Ry) as [J|J]; [right; exact J|left; exact J].
Qed.

Lemma duplex_in_time C (L : CryptoLaws C) E o ses n key ds fs ps s : c_works E ->
  client_gcm C (cs_secret ses) = Some key -> answers C key (c_ctr s) ds fs ->
  Forall (fun d => d <> [] /\ lenN d <= n) ds -> length ps = length ds -> c_ctr s + lenN ps < 2 ^ 64 ->
  c_buf s = [] -> c_in s = [] ->
  forall sched1 sched2 y z i d rs, nth_error ds i = Some d ->
    dup_run C E sched1 (duplex C o ses n ps fs s) = Some y ->
    c_ctr (x_cs y) = c_ctr s + N.of_nat (S i) ->
    x_todo y = skipn (S i) fs -> x_chan y = [] -> c_in (x_cs y) = [] -> dup_move C E y MRead = None ->
    dup_run C E sched2 y = Some z -> x_rd z = CRet rs -> nth_error rs i = Some (RdOk d true).
Proof.
  intros W K A F Hl Hc Hb Hi sched1 sched2 y z i d rs Hd Hy Ec Et Eh En Hm Hz Hr.
  assert (Si : (S i <= length fs)%nat).
  { rewrite <- (answers_length _ _ _ _ _ A). apply nth_error_Some. rewrite Hd. discriminate. }
  pose proof (dinv_start C L o ses n key ds fs ps s A Hl Hc) as I.
  pose proof (reads_start C L o ses n key ds fs ps s K A F Hl Hb Hi) as R.
  pose proof (reads_start_i C L o ses n key ds fs ps s K A F Hl Hb Hi i d Hd) as Ri.
  destruct (dinv_run C E W n key ds fs ps s A Hl Hc _ sched1 _ y I R Hy) as [Iy _].
  destruct (dinv_run_i C E W n key ds fs ps s A Hl Hc _ i sched1 Si _ y I R Ri Hy ltac:(lia)) as [Ry _].
  eapply reads_on in Ry; [|exact Hl|exact Hc|exact Si|unfold unread; rewrite En, Eh, Et; reflexivity|exact En|exact Hm].
  destruct (dinv_run C E W n key ds fs ps s A Hl Hc _ sched2 y z Iy Ry Hz) as [_ Rz].
  unfold reads in Rz. rewrite Hr in Rz. apply Rz.
Qed.
