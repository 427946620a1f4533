From Verif Require Import Bytes BytesProofs Parser Crypto Kdf Wire WireSeq WireExtra Replay SpecReplay ReplayProofs
  Base64 Server ServerSeq SpecServer ServerProps ServerProps2 Conc SpecConc ConcProofs.

Lemma loc_app i a b : loc i (a ++ b) = loc i a ++ loc i b.
Proof. unfold loc. rewrite filter_app, map_app. reflexivity. Qed.
Lemma loc_at i x a b : loc i (a ++ (i, x) :: b) = loc i a ++ x :: loc i b.
Proof. rewrite loc_app, loc_cons, Nat.eqb_refl. reflexivity. Qed.
Lemma got_noread a b : (forall x, In x a -> match x with EvRead _ => False | _ => True end) -> got (a ++ b) = got b.
Proof.
  induction a as [|x a IH]; intros H; [reflexivity|]. cbn.
  pose proof (H x (or_introl eq_refl)) as Hx.
  destruct x; try contradiction; apply IH; intros y Hy; apply H; right; exact Hy.
Qed.

Lemma seen_in p c i tr n : nth_error tr n = Some (i, EvCheck p c true) -> In c (seen p tr).
Proof.
  revert n; induction tr as [|[j x] tr IH]; intros [|n] H; try discriminate; cbn in H.
  - injection H as -> ->. cbn. rewrite Nat.eqb_refl. left; reflexivity.
  - apply IH in H. cbn. destruct x; auto. destruct fresh; auto. destruct (Nat.eqb p0 p); [right|]; exact H.
Qed.
Lemma seen_uniq p c tr : NoDup (seen p tr) -> forall n1 n2 i1 i2,
  nth_error tr n1 = Some (i1, EvCheck p c true) -> nth_error tr n2 = Some (i2, EvCheck p c true) -> n1 = n2.
Proof.
  induction tr as [|[j x] tr IH]; intros ND [|n1] [|n2] i1 i2 H1 H2; try discriminate; cbn in H1, H2.
  - reflexivity.
  - exfalso. injection H1 as -> ->. cbn in ND. rewrite Nat.eqb_refl in ND. inversion_clear ND as [|? ? N _].
    apply N. eapply seen_in, H2.
  - exfalso. injection H2 as -> ->. cbn in ND. rewrite Nat.eqb_refl in ND. inversion_clear ND as [|? ? N _].
    apply N. eapply seen_in, H1.
  - f_equal. assert (ND' : NoDup (seen p tr)).
    { cbn in ND. destruct x; auto. destruct fresh; auto. destruct (Nat.eqb p0 p); auto. inversion_clear ND; auto. }
    eapply IH; eauto.
Qed.

(** Sessions are created once. *)
Lemma new_once C g : reachable C g -> forall a i p sec b, g_trace g = a ++ (i, EvNew p sec) :: b ->
  forall j sec', ~ In (j, EvNew p sec') b.
Proof.
  induction 1 as [|g g' R IH S]; intros a i p sec b E j sec' H; [destruct a; discriminate E|].
  pose proof (inv_reach C g R) as I.
  destruct S as [i0 host pr Hi Hp|i0 v Rt e k r g' Hi Hp Ha].
  - cbn in E. eapply IH; eauto.
  - assert (Et : g_trace g' = g_trace g).
    { destruct e; cbn [ans] in Ha; try (subst g'; reflexivity); try (destruct Ha as [-> _]; reflexivity).
      - destruct Ha as [_ ->]; reflexivity.
      - destruct Ha as [->|[_ ->]]; reflexivity.
      - destruct Ha as [_ ->]; reflexivity. }
    cbn [g_log g_trace g_set_inst] in E. rewrite Et in E. destruct a as [|y a]; cbn in E.
    + injection E as -> Ex Eb. subst b.
      destruct e; cbn [ev_of] in Ex; try discriminate Ex; try (destruct r; discriminate Ex).
      injection Ex as -> ->. destruct Ha as [-> _]. apply (inv_new C g I) in H. lia.
    + injection E as _ E. eapply IH; eauto.
Qed.

Section Reach.
Variables (C : Crypto) (g : gst).
Hypothesis R : reachable C g.

Lemma event_split i x : event g i x -> exists a b, g_trace g = a ++ (i, x) :: b /\ evok C (loc i b) x.
Proof.
  intros H. apply in_split in H as (a & b & H). exists a, b. split; [exact H|].
  exact (inv_tr C g (inv_reach C g R) _ _ _ _ H).
Qed.
Lemma event_before i x a b y : g_trace g = a ++ (i, x) :: b -> In y (loc i b) -> event g i y.
Proof. intros E H. apply in_loc in H. unfold event. rewrite E. apply in_or_app. right; right; exact H. Qed.
Lemma host_event i h : event g i (EvHost h) -> host_of g i = h.
Proof.
  intros H. apply (inv_host C g (inv_reach C g R)) in H as (v & E1 & E2). unfold host_of. rewrite E1. exact E2.
Qed.
Lemma request_final i x a b h : g_trace g = a ++ (i, x) :: b -> In (EvHost h) (loc i b) ->
  match x with EvRead _ => False | _ => True end -> request_of g i = got (loc i b).
Proof.
  intros E H Hx. unfold request_of. rewrite E, loc_at.
  change (loc i a ++ x :: loc i b) with (loc i a ++ [x] ++ loc i b). rewrite app_assoc.
  apply got_noread. intros y Hy. apply in_app_or in Hy as [Hy|[<-|[]]]; [|exact Hx].
  destruct y; auto. apply in_loc in Hy. apply in_split in Hy as (a1 & a2 & Ea). subst a.
  rewrite <- app_assoc in E. cbn in E.
  pose proof (inv_tr C g (inv_reach C g R) _ _ _ _ E) as Ok. cbn [evok] in Ok.
  rewrite loc_at in Ok. rewrite existsb_app in Ok. cbn in Ok. apply orb_false_iff in Ok as [_ Ok].
  apply orb_false_iff in Ok as [_ Ok].
  assert (X : existsb is_host (loc i b) = true) by (apply existsb_exists; eexists; split; [exact H|reflexivity]).
  congruence.
Qed.

(** Events an instance performs at most once. *)
Lemma once (f : ev -> bool) : (forall h x, evok C h x -> f x = true -> existsb f h = false) ->
  forall n1 n2 i x1 x2, nth_error (g_trace g) n1 = Some (i, x1) -> nth_error (g_trace g) n2 = Some (i, x2) ->
  f x1 = true -> f x2 = true -> n1 = n2.
Proof.
  intros F.
  assert (W : forall n1 n2 i x1 x2, nth_error (g_trace g) n1 = Some (i, x1) -> nth_error (g_trace g) n2 = Some (i, x2) ->
     f x1 = true -> f x2 = true -> (n1 < n2)%nat -> False).
  { intros n1 n2 i x1 x2 E1 E2 F1 F2 L. apply nth_error_split in E1 as (a & b & E & La).
    rewrite E in E2. rewrite nth_error_app2 in E2 by lia.
    destruct (n2 - length a)%nat as [|m] eqn:Em; [lia|]. cbn in E2. apply nth_error_In in E2.
    pose proof (F _ _ (inv_tr C g (inv_reach C g R) _ _ _ _ E) F1) as N. apply in_loc in E2.
    assert (X : existsb f (loc i b) = true) by (apply existsb_exists; eauto). congruence. }
  intros n1 n2 i x1 x2 E1 E2 F1 F2. destruct (Nat.lt_total n1 n2) as [L|[L|L]]; [exfalso|exact L|exfalso]; eauto.
Qed.

Lemma check_owner i1 i2 p c : event g i1 (EvCheck p c true) -> event g i2 (EvCheck p c true) -> i1 = i2.
Proof.
  intros H1 H2. apply In_nth_error in H1 as [n1 H1]. apply In_nth_error in H2 as [n2 H2].
  assert (n1 = n2) by (eapply (seen_uniq p c); eauto; apply (inv_nodup C g (inv_reach C g R))).
  congruence.
Qed.

Lemma handler_check i p c r m h : event g i (EvHandler p c r m h) -> event g i (EvCheck p c true).
Proof. intros H. apply event_split in H as (a & b & E & H & _). eapply event_before; eauto. Qed.
Lemma seal_check i p c k n pt ct : event g i (EvSeal p c k n pt ct) -> event g i (EvCheck p c true).
Proof. intros H. apply event_split in H as (a & b & E & _ & H & _). eapply event_before; eauto. Qed.

Lemma handler_once n1 n2 i1 i2 p c r1 r2 m1 m2 h1 h2 :
  nth_error (g_trace g) n1 = Some (i1, EvHandler p c r1 m1 h1) ->
  nth_error (g_trace g) n2 = Some (i2, EvHandler p c r2 m2 h2) -> n1 = n2.
Proof.
  intros H1 H2. assert (i1 = i2).
  { eapply check_owner; eapply handler_check; eapply nth_error_In; eauto. }
  subst i2. refine (once is_handler _ n1 n2 i1 _ _ H1 H2 eq_refl eq_refl).
  intros h x Ok F. destruct x; try discriminate. apply Ok.
Qed.

Lemma seal_spec i p c k n pt ct : event g i (EvSeal p c k n pt ct) ->
  c < two64 /\ n = gcm_nonce dir_s2c c /\ ct = gcm_seal C k n pt /\
  (exists m, event g i (EvHandler p c true m (HOk pt))) /\
  exists sec, event g i (EvSecret p sec) /\ new_gcm C sec = Some k.
Proof.
  intros H. apply event_split in H as (a & b & E & Hc & _ & _ & Hn & Hct & (m & Hm) & sec & Hs & Hk).
  repeat split; auto.
  - exists m. eapply event_before; eauto.
  - exists sec. split; [eapply event_before; eauto|exact Hk].
Qed.
Lemma seal_once n1 n2 i1 i2 p c1 c2 k1 k2 nonce1 nonce2 pt1 pt2 ct1 ct2 :
  nth_error (g_trace g) n1 = Some (i1, EvSeal p c1 k1 nonce1 pt1 ct1) ->
  nth_error (g_trace g) n2 = Some (i2, EvSeal p c2 k2 nonce2 pt2 ct2) -> nonce1 = nonce2 -> n1 = n2.
Proof.
  intros H1 H2 En.
  pose proof (seal_spec _ _ _ _ _ _ _ (nth_error_In _ _ H1)) as (Hc1 & Hn1 & _).
  pose proof (seal_spec _ _ _ _ _ _ _ (nth_error_In _ _ H2)) as (Hc2 & Hn2 & _).
  rewrite Hn1, Hn2 in En. assert (c1 = c2).
  { apply gcm_nonce_inj in En; tauto. }
  subst c2. assert (i1 = i2).
  { eapply check_owner; eapply seal_check; eapply nth_error_In; eauto. }
  subst i2. refine (once is_seal _ n1 n2 i1 _ _ H1 H2 eq_refl eq_refl).
  intros h x Ok F. destruct x; try discriminate. apply Ok.
Qed.

Lemma secret_is p i j s s' : event g i (EvSecret p s) -> event g j (EvNew p s') -> s = s'.
Proof.
  intros H1 H2. apply (inv_secret C g (inv_reach C g R)) in H1. apply (inv_new C g (inv_reach C g R)) in H2 as [_ H2].
  congruence.
Qed.

Lemma creator p j1 j2 s1 s2 : event g j1 (EvNew p s1) -> event g j2 (EvNew p s2) -> j1 = j2 /\ s1 = s2.
Proof.
  intros H1 H2. apply In_nth_error in H1 as [n1 H1]. apply In_nth_error in H2 as [n2 H2].
  assert (W : forall n1 n2 j1 j2 s1 s2, nth_error (g_trace g) n1 = Some (j1, EvNew p s1) ->
      nth_error (g_trace g) n2 = Some (j2, EvNew p s2) -> (n1 < n2)%nat -> False).
  { clear n1 n2 j1 j2 s1 s2 H1 H2. intros n1 n2 j1 j2 s1 s2 E1 E2 L. apply nth_error_split in E1 as (a & b & E & La).
    rewrite E in E2. rewrite nth_error_app2 in E2 by lia.
    destruct (n2 - length a)%nat as [|m] eqn:Em; [lia|]. cbn in E2. apply nth_error_In in E2.
    eapply new_once; eauto. }
  destruct (Nat.lt_total n1 n2) as [L|[L|L]]; [exfalso; eauto| |exfalso; eauto].
  subst n2. split; congruence.
Qed.

Lemma loaded i k p : event g i (EvLoad k (Some p)) -> exists j host id pub sk sec,
  set_up C g p j host id pub sk sec /\ k = session_key C host id.
Proof.
  intros H. apply (inv_load C g (inv_reach C g R)) in H. apply (inv_stored C g (inv_reach C g R)) in H as (_ & j & ok & H).
  apply event_split in H as (a & b & E & host & id & sec & pub & sk & Hk & Ho & Hh & Hg & Hn & Hd).
  exists j, host, id, pub, sk, sec. split; [|exact Hk]. split; [|split; [|split; [|split]]].
  - apply host_event. eapply event_before; eauto.
  - erewrite request_final; eauto. exact Logic.I.
  - eapply event_before; eauto.
  - eapply event_before; eauto.
  - exact Hd.
Qed.

(** What using a session means. *)
Lemma check_request i p c b : event g i (EvCheck p c b) -> exists host id reply ct,
  host_of g i = Some host /\ process_octets (request_of g i) reply id c ct /\
  event g i (EvLoad (session_key C host id) (Some p)).
Proof.
  intros H. apply event_split in H as (a & b' & E & _ & host & id & reply & ct & Ho & Hh & Hl).
  exists host, id, reply, ct. split; [apply host_event; eapply event_before; eauto|].
  split; [erewrite request_final; eauto; exact Logic.I|eapply event_before; eauto].
Qed.
Lemma load_request i p k : event g i (EvLoad k p) -> exists host id reply c ct,
  host_of g i = Some host /\ process_octets (request_of g i) reply id c ct /\ k = session_key C host id.
Proof.
  intros H. apply event_split in H as (a & b' & E & host & id & reply & c & ct & Hk & Ho & Hh).
  exists host, id, reply, c, ct. split; [apply host_event; eapply event_before; eauto|].
  split; [erewrite request_final; eauto; exact Logic.I|exact Hk].
Qed.
Lemma process_octets_inj rq r1 i1 c1 m1 r2 i2 c2 m2 :
  process_octets rq r1 i1 c1 m1 -> process_octets rq r2 i2 c2 m2 -> r1 = r2 /\ i1 = i2 /\ c1 = c2 /\ m1 = m2.
Proof.
  intros (b & f & E1 & L1 & C1 & M1 & _ & F1) (b' & f' & E2 & L2 & C2 & M2 & _ & F2).
  rewrite E1 in E2. apply (app_inj_len [b; f] _ [b'; f']) in E2 as [Ef E]; [|reflexivity]. injection Ef as -> ->.
  apply app_inj_len in E as [-> E]; [|lia]. apply app_inj_len in E as [Ec E]; [|rewrite !be_enc_length; reflexivity].
  apply app_inj_len in E as [_ Em]; [|rewrite !be_enc_length; reflexivity].
  repeat split; auto; [congruence|]. apply (f_equal be_dec) in Ec. rewrite !be_dec_enc_small in Ec; assumption.
Qed.

Lemma handler_spec (L : CryptoLaws C) i p c reply m r : event g i (EvHandler p c reply m r) ->
  exists host id ct key sec j hj idj pub sk,
    host_of g i = Some host /\ process_octets (request_of g i) reply id c ct /\
    set_up C g p j hj idj pub sk sec /\
    ((hj = host /\ idj = id) \/ collision C hj idj host id) /\
    new_gcm C sec = Some key /\ ct = gcm_seal C key (gcm_nonce dir_c2s c) m.
Proof.
  intros H. apply event_split in H as (a & b & E & _ & _ & host & id & sec & key & ct & Ho & Hh & Hl & Hs & Hk & Hg).
  assert (Hl' := event_before _ _ _ _ _ E Hl). destruct (loaded _ _ _ Hl') as (j & hj & idj & pub & sk & sec' & Su & Ek).
  exists host, id, ct, key, sec, j, hj, idj, pub, sk.
  assert (sec = sec') by (eapply secret_is; [eapply event_before; eauto|apply Su]). subst sec'.
  split; [apply host_event; eapply event_before; eauto|].
  split; [erewrite request_final; eauto; exact Logic.I|]. split; [exact Su|].
  split; [|split; [exact Hk|exact (gcm_open_inv C L _ _ _ _ Hg)]].
  symmetry in Ek. apply session_key_inj in Ek; auto.
  destruct Su as (_ & (b1 & r1 & _ & Li & _) & _). destruct Ho as (? & ? & _ & Li' & _). congruence.
Qed.

Lemma isolation (L : CryptoLaws C) i p k : event g i (EvLoad k (Some p)) ->
  exists j hi idi reply c ct hj idj pub sk sec,
    set_up C g p j hj idj pub sk sec /\
    host_of g i = Some hi /\ process_octets (request_of g i) reply idi c ct /\
    ((hj = hi /\ idj = idi) \/ collision C hj idj hi idi).
Proof.
  intros H. destruct (loaded _ _ _ H) as (j & hj & idj & pub & sk & sec & Su & Ek).
  apply load_request in H as (hi & idi & reply & c & ct & Hh & Ho & Ek').
  exists j, hi, idi, reply, c, ct, hj, idj, pub, sk, sec. split; [exact Su|]. split; [exact Hh|]. split; [exact Ho|].
  rewrite Ek in Ek'. apply session_key_inj in Ek'; auto.
  destruct Su as (_ & (b1 & r1 & _ & Li & _) & _). destruct Ho as (? & ? & _ & Li' & _). congruence.
Qed.

Lemma secret_loaded i p sec : event g i (EvSecret p sec) -> exists k, event g i (EvLoad k (Some p)).
Proof. intros H. apply event_split in H as (a & b & E & k & H). exists k. eapply event_before; eauto. Qed.

Lemma sign_session i h m r : event g i (EvSign h m r) -> h = SHA512 /\
  exists host id pub sk p sec, set_up C g p i host id pub sk sec /\
    m = setup_transcript pub (x_pub C sk) id /\ event g i (EvStore (session_key C host id) p true).
Proof.
  intros H. apply event_split in H as (a & b & E & Hh & _ & host & id & pub & sk & p & sec & Ho & Hs & Hg & Hm & Hn & Hd & Hst).
  split; [exact Hh|]. exists host, id, pub, sk, p, sec. split; [|split; [exact Hm|eapply event_before; eauto]].
  split; [apply host_event; eapply event_before; eauto|].
  split; [erewrite request_final; eauto; exact Logic.I|].
  split; [eapply event_before; eauto|]. split; [eapply event_before; eauto|exact Hd].
Qed.
Lemma sign_spec i h m r : event g i (EvSign h m r) -> h = SHA512 /\
  exists id pub sk, setup_octets C (request_of g i) id pub /\ event g i (EvGen (Some sk)) /\
    m = setup_transcript pub (x_pub C sk) id.
Proof.
  intros H. apply sign_session in H as (Hh & host & id & pub & sk & p & sec & (_ & S2 & S3 & _) & Hm & _).
  split; [exact Hh|]. exists id, pub, sk. auto.
Qed.

Lemma once_val (f : ev -> bool) : (forall h x, evok C h x -> f x = true -> existsb f h = false) ->
  forall i x1 x2, event g i x1 -> event g i x2 -> f x1 = true -> f x2 = true -> x1 = x2.
Proof.
  intros F i x1 x2 H1 H2 F1 F2. apply In_nth_error in H1 as [n1 H1]. apply In_nth_error in H2 as [n2 H2].
  assert (n1 = n2) by (eapply once; eauto). congruence.
Qed.
Lemma gen_once i k1 k2 : event g i (EvGen k1) -> event g i (EvGen k2) -> k1 = k2.
Proof.
  intros H1 H2. assert (E : EvGen k1 = EvGen k2) by
    (refine (once_val is_gen _ i _ _ H1 H2 eq_refl eq_refl); intros h x Ok F; destruct x; try discriminate; apply Ok).
  congruence.
Qed.

Lemma write_spec i b n : event g i (EvWrite b n) -> exists r, b = enc_response r /\
  match r with
  | RsHello => True
  | RsError c m => In (c, m) error_texts
  | RsSetup spub ht sig => exists id pub sk, setup_octets C (request_of g i) id pub /\
      event g i (EvGen (Some sk)) /\ spub = x_pub C sk /\ ht = 4 /\
      event g i (EvSign SHA512 (setup_transcript pub spub id) (KOk sig))
  | RsProcess c ct => exists p key pt m sec, ct = gcm_seal C key (gcm_nonce dir_s2c c) pt /\
      event g i (EvHandler p c true m (HOk pt)) /\ event g i (EvSecret p sec) /\ new_gcm C sec = Some key
  | RsFetchKey alg raw => exists pk, event g i (EvFetchKey (KOk (alg, pk))) /\ pkix_marshal C pk = Some raw
  end.
Proof.
  intros H. apply event_split in H as (a & b' & E & r & Er & W). exists r. split; [exact Er|].
  destruct r; cbn [write_ok] in W; auto.
  - destruct W as (sk & m & Hg & Hp & Ht & Hs). pose proof (event_before _ _ _ _ _ E Hs) as Hs'.
    pose proof (sign_spec _ _ _ _ Hs') as (_ & id & pub0 & sk' & Ho & Hg' & Hm).
    pose proof (event_before _ _ _ _ _ E Hg) as Hg2. pose proof (gen_once _ _ _ Hg' Hg2) as [= ->].
    exists id, pub0, sk. subst pub. rewrite <- Hm. repeat split; auto.
  - destruct W as (p & key & pt & Hs). pose proof (seal_spec _ _ _ _ _ _ _ (event_before _ _ _ _ _ E Hs))
      as (_ & _ & Hct & (m & Hm) & sec & Hsec & Hk).
    exists p, key, pt, m, sec. auto.
  - destruct W as (pk & Hf & Hm). exists pk. split; [eapply event_before; eauto|exact Hm].
Qed.
Lemma seal_direction i p c k n pt ct : event g i (EvSeal p c k n pt ct) ->
  (forall c', n <> gcm_nonce dir_c2s c') /\ exists sec, event g i (EvSecret p sec) /\ new_gcm C sec = Some k.
Proof.
  intros H. apply seal_spec in H as (_ & -> & _ & _ & H). split; [|exact H].
  intros c'. rewrite !gcm_nonce_form. discriminate.
Qed.
Lemma uses_loaded i x p : event g i x ->
  (exists s, x = EvSecret p s) \/ (exists c b, x = EvCheck p c b) \/ (exists c r m h, x = EvHandler p c r m h) \/
  (exists c k n pt ct, x = EvSeal p c k n pt ct) ->
  exists k, event g i (EvLoad k (Some p)).
Proof.
  intros H [(s & ->)|[(c & b & ->)|[(c & r & m & h & ->)|(c & k & n & pt & ct & ->)]]].
  - eapply secret_loaded, H.
  - apply check_request in H as (host & id & reply & ct & _ & _ & H). eauto.
  - apply handler_check, check_request in H as (host & id & reply & ct & _ & _ & H). eauto.
  - apply seal_check, check_request in H as (host & id & reply & ct' & _ & _ & H). eauto.
Qed.
End Reach.
