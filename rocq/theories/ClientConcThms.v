From Verif Require Import Bytes BytesProofs Parser Crypto Kdf Wire WireSeq WireExtra Server ServerSeq SpecServer Keys Client ClientSeq SpecClient
  Conc SpecConc ConcProofs ConcThms ClientProofs ClientConc SpecClientConc ClientConcProofs.

Lemma kloc_app i a b : kloc i (a ++ b) = kloc i a ++ kloc i b.
Proof. unfold kloc. rewrite filter_app, map_app. reflexivity. Qed.
Lemma kloc_at i x a b : kloc i (a ++ (i, x) :: b) = kloc i a ++ x :: kloc i b.
Proof. rewrite kloc_app, kloc_cons, Nat.eqb_refl. reflexivity. Qed.
Lemma kgot_noread a b : (forall x, In x a -> match x with KRead _ => False | _ => True end) -> kgot (a ++ b) = kgot b.
Proof.
  induction a as [|x a IH]; intros H; [reflexivity|]. cbn.
  pose proof (H x (or_introl eq_refl)) as Hx.
  destruct x; try contradiction; apply IH; intros y Hy; apply H; right; exact Hy.
Qed.
Lemma adds_app s a b : adds s (a ++ b) = adds s a + adds s b.
Proof.
  induction a as [|[j x] a IH]; [reflexivity|]. cbn [app adds]. destruct x; auto.
  destruct (Nat.eqb s0 s); rewrite IH; lia.
Qed.

Section Reach.
Variables (C : Crypto) (W : world) (k : kst).
Hypothesis R : kreachable C W k.

Lemma kevent_split i x : kevent k i x -> exists v a b, k_inst k i = Some v /\ k_trace k = a ++ (i, x) :: b /\
  kevok C W (o_client v) (o_op v) (kloc i b) x /\ gok b x.
Proof.
  intros H. apply in_split in H as (a & b & H).
  destruct (kinv_tr C W k (kinv_reach C W k R) _ _ _ _ H) as (v & E & K). exists v, a, b. tauto.
Qed.
Lemma kevent_before i x a b y : k_trace k = a ++ (i, x) :: b -> In y (kloc i b) -> kevent k i y.
Proof. intros E H. apply in_kloc in H. unfold kevent. rewrite E. apply in_or_app. right; right; exact H. Qed.

Lemma konce (f : kev -> bool) : (forall cl o h x, kevok C W cl o h x -> f x = true -> existsb f h = false) ->
  forall n1 n2 i x1 x2, nth_error (k_trace k) n1 = Some (i, x1) -> nth_error (k_trace k) n2 = Some (i, x2) ->
  f x1 = true -> f x2 = true -> n1 = n2.
Proof.
  intros F.
  assert (Q : forall n1 n2 i x1 x2, nth_error (k_trace k) n1 = Some (i, x1) -> nth_error (k_trace k) n2 = Some (i, x2) ->
     f x1 = true -> f x2 = true -> (n1 < n2)%nat -> False).
  { intros n1 n2 i x1 x2 E1 E2 F1 F2 L. apply nth_error_split in E1 as (a & b & E & La).
    rewrite E in E2. rewrite nth_error_app2 in E2 by lia.
    destruct (n2 - length a)%nat as [|m] eqn:Em; [lia|]. cbn in E2. apply nth_error_In in E2.
    destruct (kinv_tr C W k (kinv_reach C W k R) _ _ _ _ E) as (v & _ & Ok & _).
    pose proof (F _ _ _ _ Ok F1) as N. apply in_kloc in E2.
    assert (X : existsb f (kloc i b) = true) by (apply existsb_exists; eauto). congruence. }
  intros n1 n2 i x1 x2 E1 E2 F1 F2. destruct (Nat.lt_total n1 n2) as [L|[L|L]]; [exfalso|exact L|exfalso]; eauto.
Qed.

(** A counter value other than 0 is handed out once, up to 2^64 increments. *)
Lemma add_owner s c i1 i2 : adds s (k_trace k) <= two64 -> c <> 0 ->
  kevent k i1 (KAdd s c) -> kevent k i2 (KAdd s c) -> i1 = i2.
Proof.
  intros Hs Nz H1 H2.
  assert (Q : forall n1 n2 i1 i2, nth_error (k_trace k) n1 = Some (i1, KAdd s c) ->
     nth_error (k_trace k) n2 = Some (i2, KAdd s c) -> (n1 < n2)%nat -> False).
  { clear i1 i2 H1 H2. intros n1 n2 i1 i2 E1 E2 L. apply nth_error_split in E1 as (a & b & E & La).
    rewrite E in E2. rewrite nth_error_app2 in E2 by lia.
    destruct (n2 - length a)%nat as [|m] eqn:Em; [lia|]. cbn in E2. apply nth_error_split in E2 as (a2 & b2 & E2 & _).
    destruct (kinv_tr C W k (kinv_reach C W k R) _ _ _ _ E) as (_ & _ & _ & G1). cbn [gok] in G1.
    assert (E' : k_trace k = (a ++ (i1, KAdd s c) :: a2) ++ (i2, KAdd s c) :: b2) by (rewrite <- app_assoc, E, E2; reflexivity).
    destruct (kinv_tr C W k (kinv_reach C W k R) _ _ _ _ E') as (_ & _ & _ & G2). cbn [gok] in G2.
    rewrite E, adds_app in Hs. cbn [adds] in Hs. rewrite Nat.eqb_refl in Hs.
    assert (X : adds s b = adds s a2 + (1 + adds s b2)) by (rewrite E2, adds_app; cbn [adds]; rewrite Nat.eqb_refl; reflexivity).
    assert (Y : forall z, z + 1 <= two64 -> c = (z + 1) mod two64 -> z + 1 = c).
    { intros z Hz Hc. destruct (N.eq_dec (z + 1) two64) as [e|e].
      - rewrite e, N.mod_same in Hc by discriminate. contradiction.
      - rewrite N.mod_small in Hc by lia. symmetry; exact Hc. }
    apply Y in G1; [|lia]. apply Y in G2; [|lia]. lia. }
  apply In_nth_error in H1 as [n1 H1]. apply In_nth_error in H2 as [n2 H2].
  destruct (Nat.lt_total n1 n2) as [L|[L|L]]; [exfalso; eauto|congruence|exfalso; eauto].
Qed.

Lemma kseal_spec i s c key nonce pt ct : kevent k i (KSeal s c key nonce pt ct) -> exists cl,
  started k i cl (OpWrite pt) /\ s = w_session W cl /\ kevent k i (KSetLast cl c) /\ kevent k i (KAdd s c) /\
  c <> 0 /\ c < two64 /\ client_gcm C (cs_secret (w_secret W s)) = Some key /\
  nonce = gcm_nonce dir_c2s c /\ ct = gcm_seal C key nonce pt.
Proof.
  intros H. apply kevent_split in H as (v & a & b & Ei & E & (-> & Ho & _ & Hl & Ha & Nz & Hc & Hk & Hn & Hct) & _).
  exists (o_client v). split; [exists v; auto|]. split; [reflexivity|].
  split; [eapply kevent_before; eauto|]. split; [eapply kevent_before; eauto|]. auto 10.
Qed.

Lemma client_nonce_once s n1 n2 i1 i2 c1 c2 k1 k2 nonce1 nonce2 pt1 pt2 ct1 ct2 :
  adds s (k_trace k) <= 2 ^ 64 ->
  nth_error (k_trace k) n1 = Some (i1, KSeal s c1 k1 nonce1 pt1 ct1) ->
  nth_error (k_trace k) n2 = Some (i2, KSeal s c2 k2 nonce2 pt2 ct2) -> nonce1 = nonce2 -> n1 = n2.
Proof.
  intros Hs H1 H2 En.
  destruct (kseal_spec _ _ _ _ _ _ _ (nth_error_In _ _ H1)) as (cl1 & _ & _ & _ & A1 & Nz & Hc1 & _ & Hn1 & _).
  destruct (kseal_spec _ _ _ _ _ _ _ (nth_error_In _ _ H2)) as (cl2 & _ & _ & _ & A2 & _ & Hc2 & _ & Hn2 & _).
  rewrite Hn1, Hn2 in En. apply gcm_nonce_inj in En as [_ <-]; try assumption.
  pose proof (add_owner s c1 i1 i2 Hs Nz A1 A2) as <-.
  refine (konce is_kseal _ n1 n2 i1 _ _ H1 H2 eq_refl eq_refl).
  intros cl o h x Ok F. destruct x; try discriminate. apply Ok.
Qed.

(** What goes on the wire. *)
Lemma kwrite_spec i b n : kevent k i (KWrite b n) -> exists cl p c key ct,
  started k i cl (OpWrite p) /\ let s := w_session W cl in
  client_gcm C (cs_secret (w_secret W s)) = Some key /\ c <> 0 /\ c < 2 ^ 64 /\
  kevent k i (KSeal s c key (x00 :: repeat x00 3 ++ be_enc 8 c) p ct) /\
  ct = gcm_seal C key (x00 :: repeat x00 3 ++ be_enc 8 c) p /\
  b = enc_request (RqProcess (cs_id (w_secret W s)) c ct (co_reply (w_opts W cl))).
Proof.
  intros H. apply kevent_split in H as (v & a & b' & Ei & E & (c & key & pt & ct & Ho & Hs & Hb & _) & _).
  apply (kevent_before i _ a b' _ E) in Hs. pose proof (kseal_spec _ _ _ _ _ _ _ Hs) as (cl & St & Hcl & _ & _ & Nz & Hc & Hk & _ & Hct).
  assert (cl = o_client v) as ->.
  { destruct St as (v' & E1 & E2 & _). rewrite Ei in E1. injection E1 as <-. auto. }
  exists (o_client v), pt, c, key, ct. split; [exact St|]. cbv zeta. split; [exact Hk|]. split; [exact Nz|]. split; [exact Hc|].
  split; [exact Hs|]. split; [exact Hct|exact Hb].
Qed.

Lemma response_final i x a b cl c : k_trace k = a ++ (i, x) :: b -> In (KGetLast cl c) (kloc i b) ->
  match x with KRead _ => False | _ => True end -> response_of k i = kgot (kloc i b).
Proof.
  intros E H Hx. unfold response_of. rewrite E, kloc_at.
  change (kloc i a ++ x :: kloc i b) with (kloc i a ++ [x] ++ kloc i b). rewrite app_assoc.
  apply kgot_noread. intros y Hy. apply in_app_or in Hy as [Hy|[<-|[]]]; [|exact Hx].
  destruct y; auto. apply in_kloc in Hy. apply in_split in Hy as (a1 & a2 & Ea). subst a.
  rewrite <- app_assoc in E. cbn in E.
  destruct (kinv_tr C W k (kinv_reach C W k R) _ _ _ _ E) as (v & _ & Ok & _). cbn [kevok] in Ok.
  rewrite kloc_at in Ok. rewrite existsb_app in Ok. cbn in Ok. apply orb_false_iff in Ok as [_ Ok].
  apply orb_false_iff in Ok as [_ Ok].
  assert (X : existsb is_getlast (kloc i b) = true) by (apply existsb_exists; eexists; split; [exact H|reflexivity]).
  congruence.
Qed.

(** What a Read returns is a stretch of replies accepted on that client. *)
Lemma read_from_replies i cl n data eof :
  started k i cl (OpRead n) -> finished k i (inl (RdOk data eof)) ->
  lenN data <= n /\ exists pre post ms, concat ms = pre ++ data ++ post /\
    Forall (fun m => exists c ct, accepted C W k cl c ct m) ms.
Proof.
  intros (v & Ei & Ec & Eo) (v' & Ei' & Ep). rewrite Ei in Ei'. injection Ei' as <-.
  pose proof (kinv_safe C W k (kinv_reach C W k R) i v Ei) as S. rewrite Ep, Ec, Eo in S. cbn [ksafe kpost] in S.
  destruct S as (n' & b & [= <-] & Hin & -> & _). apply in_kloc in Hin.
  split; [rewrite takeN_len; lia|].
  destruct (kinv_getbuf C W k (kinv_reach C W k R) i cl b Hin) as (pre & ms & E & F).
  exists pre, (dropN n b), ms. split; [rewrite takeN_dropN; exact E|].
  eapply Forall_impl; [|exact F]. clear - R. intros m (i & a & b' & r & E & c & ct & key & Ho & Hg & Hk & Hm).
  destruct (kinv_tr C W k (kinv_reach C W k R) _ _ _ _ E) as (v & Ei & (-> & n & b & Eo & _) & _).
  exists c, ct, i, n, key. split; [exists v; auto|].
  split; [rewrite (response_final i _ a r (o_client v) c E Hg Logic.I); exact Ho|]. split; [|split; assumption].
  apply in_kloc in Hg. apply in_split in Hg as (a1 & b1 & E1).
  exists (a ++ (i, KSetBuf (o_client v) b') :: a1), b1. rewrite <- app_assoc. cbn.
  split; [rewrite E, E1; reflexivity|].
  assert (E2 : k_trace k = (a ++ (i, KSetBuf (o_client v) b') :: a1) ++ (i, KGetLast (o_client v) c) :: b1)
    by (rewrite <- app_assoc, E, E1; reflexivity).
  destruct (kinv_tr C W k (kinv_reach C W k R) _ _ _ _ E2) as (_ & _ & _ & G). exact G.
Qed.

Lemma last_set_event cl b : last_set cl b = 0 \/ exists j, In (j, KSetLast cl (last_set cl b)) b.
Proof.
  induction b as [|[j x] b IH]; [left; reflexivity|]. cbn [last_set].
  assert (X : forall c, last_set cl b = c -> c = 0 \/ exists j0, In (j0, KSetLast cl c) ((j, x) :: b)).
  { intros c <-. destruct IH as [->|[j0 H]]; [left; reflexivity|right; exists j0; right; exact H]. }
  destruct x; try (apply X; reflexivity). destruct (Nat.eqb_spec cl0 cl) as [->|N]; [|apply X; reflexivity].
  right. exists j. left; reflexivity.
Qed.
Lemma set_last_spec j cl c : kevent k j (KSetLast cl c) -> c <> 0 /\ kevent k j (KAdd (w_session W cl) c) /\
  exists p, started k j cl (OpWrite p).
Proof.
  intros H. apply kevent_split in H as (v & a & b & Ei & E & (-> & Ha & Nz & p & Ho) & _).
  split; [exact Nz|]. split; [eapply kevent_before; eauto|]. exists p, v. auto.
Qed.

(** Such a reply, if the server made it, is the handler's answer to the very
    message that was written on that client with that counter, if a client made
    the request. *)
Lemma reply_origin cl c ct m (L : CryptoLaws C) g : reachable C g -> accepted C W k cl c ct m ->
  distinct_keys C W k -> adds (w_session W cl) (k_trace k) <= 2 ^ 64 ->
  exists key, client_gcm C (cs_secret (w_secret W (w_session W cl))) = Some key /\
    ct = gcm_seal C key (x01 :: repeat x00 3 ++ be_enc 8 c) m /\
    forall i p c' m', event g i (EvSeal p c' key (x01 :: repeat x00 3 ++ be_enc 8 c) m' ct) ->
      c' = c /\ m' = m /\ exists req, event g i (EvHandler p c true req (HOk m)) /\
      forall j s c'' ct', kevent k j (KSeal s c'' key (x00 :: repeat x00 3 ++ be_enc 8 c) req ct') ->
        s = w_session W cl /\ c'' = c /\ wrote k cl c req.
Proof.
  intros Rg (i0 & n & key & St0 & Ho & (a & b & E & Hl) & Hk & Hm) Dk Ha.
  assert (Hc : c < two64) by (destruct Ho as (b0 & _ & _ & H & _); exact H).
  exists key. split; [exact Hk|]. split; [exact (gcm_open_inv _ L _ _ _ _ Hm)|].
  intros i p c' m' Hs. apply (seal_spec C g Rg) in Hs as (Hc' & Hn & Hct & (req & Hh) & _).
  change (x01 :: repeat x00 3 ++ be_enc 8 c) with (gcm_nonce dir_s2c c) in *.
  apply gcm_nonce_inj in Hn as [_ <-]; try assumption.
  assert (m' = m) as ->.
  { pose proof (gcm_open_seal _ L key (gcm_nonce dir_s2c c) m') as G. rewrite <- Hct in G. congruence. }
  split; [reflexivity|]. split; [reflexivity|]. exists req. split; [exact Hh|].
  intros j s c'' ct' Hks. apply kseal_spec in Hks as (cl' & St & Es & Hsl & Had & Nz & Hc'' & Hk' & Hn' & _).
  change (x00 :: repeat x00 3 ++ be_enc 8 c) with (gcm_nonce dir_c2s c) in Hn'.
  apply gcm_nonce_inj in Hn' as [_ <-]; try assumption.
  assert (Ess : w_session W cl = s).
  { apply (Dk _ _ key); auto; [exists i0, cl, (OpRead n)|exists j, cl', (OpWrite req)]; auto. } rewrite <- Ess in *. split; [reflexivity|]. split; [reflexivity|].
  destruct (last_set_event cl b) as [Z|[j' Hj']]; [congruence|]. rewrite <- Hl in Hj'.
  assert (K : kevent k j' (KSetLast cl c)) by (unfold kevent; rewrite E; apply in_or_app; right; right; exact Hj').
  pose proof (set_last_spec _ _ _ K) as (_ & Had' & p' & St').
  pose proof (add_owner _ _ _ _ Ha Nz Had Had') as <-.
  exists j. split; [|exact K].
  destruct St as (v & V1 & V2 & V3), St' as (v' & V1' & V2' & V3'). rewrite V1 in V1'. injection V1' as <-.
  exists v. repeat split; auto.
Qed.

(** Nothing a client does panics. *)
Lemma no_panic i v : k_inst k i = Some v -> o_prog v <> CPanic.
Proof.
  intros H E. pose proof (kinv_safe C W k (kinv_reach C W k R) i v H) as S. rewrite E in S. exact S.
Qed.
End Reach.
