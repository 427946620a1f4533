From Verif Require Import Bytes BytesProofs Parser Crypto Kdf Wire WireProofs WireSeq WireExtra Server ServerSeq SpecServer Keys Client ClientSeq SpecClient
  ServerProps Conc SpecConc ConcProofs ConcThms ClientConc SpecClientConc ClientConcProofs ClientConcThms SpecChannel.

Section Channel.
Variables (C : Crypto) (W : world) (k : kst) (g : gst).
Hypotheses (L : CryptoLaws C) (Rg : reachable C g) (Rk : kreachable C W k).

Lemma handler_counter i p c reply m r : event g i (EvHandler p c reply m r) -> c < two64.
Proof.
  intros H. apply (handler_spec C g Rg L) in H as (host & id & ct & key & sec & j & hj & idj & pub & sk & _ & Ho & _).
  destruct Ho as (b0 & fb & _ & _ & Hc & _). exact Hc.
Qed.

Lemma calls_are_writes n i p c reply m r key s :
  requests_unforged C W k g -> distinct_keys C W k ->
  nth_error (g_trace g) n = Some (i, EvHandler p c reply m r) ->
  server_key C g p key -> used W k s -> client_key C W s key ->
  exists j cl, w_session W cl = s /\ wrote_by k j cl c m /\ serves C W k g n j.
Proof.
  intros U D Hn Hk Hu Hc. pose proof (nth_error_In _ _ Hn) as He.
  destruct (U _ _ _ _ _ _ _ _ He Hk Hu Hc) as (j & s' & c' & m' & Hs).
  pose proof (handler_counter _ _ _ _ _ _ He) as Bc.
  apply (kseal_spec C W k Rk) in Hs as (cl & St & -> & Hl & _ & _ & Bc' & Hk' & En & Ect).
  change (x00 :: repeat x00 3 ++ be_enc 8 c) with (gcm_nonce dir_c2s c) in *.
  apply gcm_nonce_inj in En as [_ <-]; try assumption.
  assert (m' = m) as ->.
  { pose proof (gcm_open_seal _ L key (gcm_nonce dir_c2s c) m') as G. rewrite <- Ect, (gcm_open_seal _ L) in G. congruence. }
  assert (Es : w_session W cl = s).
  { apply (D _ _ key); auto. exists j, cl, (OpWrite m). auto. }
  assert (Wr : wrote_by k j cl c m) by (split; assumption).
  exists j, cl. split; [exact Es|]. split; [exact Wr|].
  exists i, p, c, reply, m, r, key, cl. rewrite Es. auto.
Qed.

Lemma wrote_fun j cl c m cl' c' m' : wrote_by k j cl c m -> wrote_by k j cl' c' m' -> cl = cl' /\ m = m' /\ c = c'.
Proof.
  intros [(v & E & E1 & E2) H] [(v' & E' & E1' & E2') H']. rewrite E in E'. injection E' as <-.
  split; [congruence|]. split; [congruence|].
  apply (set_last_spec C W k Rk) in H as (_ & H & _), H' as (_ & H' & _).
  apply In_nth_error in H as [n1 H], H' as [n2 H'].
  assert (n1 = n2) as <-; [|congruence].
  refine (konce C W k Rk is_add _ n1 n2 j _ _ H H' eq_refl eq_refl).
  intros cl0 o h x Ok F. destruct x; try discriminate. apply Ok.
Qed.

Lemma serves_once n1 n2 j : distinct_server_keys C g -> serves C W k g n1 j -> serves C W k g n2 j -> n1 = n2.
Proof.
  intros D (i1 & p1 & c1 & r1 & m1 & h1 & key1 & cl1 & N1 & K1 & Q1 & W1) (i2 & p2 & c2 & r2 & m2 & h2 & key2 & cl2 & N2 & K2 & Q2 & W2).
  destruct (wrote_fun _ _ _ _ _ _ _ W1 W2) as (<- & <- & <-).
  unfold client_key in *. rewrite Q1 in Q2. injection Q2 as <-.
  pose proof (D _ _ _ K1 K2) as <-. eapply (handler_once C g Rg); eauto.
Qed.

Lemma serves_one_write n j1 j2 : distinct_keys C W k -> (forall s, adds s (k_trace k) <= 2 ^ 64) ->
  serves C W k g n j1 -> serves C W k g n j2 -> j1 = j2.
Proof.
  intros D A (i1 & p1 & c1 & r1 & m1 & h1 & key1 & cl1 & N1 & K1 & Q1 & W1) (i2 & p2 & c2 & r2 & m2 & h2 & key2 & cl2 & N2 & K2 & Q2 & W2).
  rewrite N1 in N2. injection N2 as <- <- <- <- <- <-.
  destruct K1 as (x1 & s1 & E1 & G1), K2 as (x2 & s2 & E2 & G2). destruct (creator C g Rg _ _ _ _ _ E1 E2) as [_ <-].
  rewrite G1 in G2. injection G2 as <-.
  destruct W1 as [S1 H1], W2 as [S2 H2].
  assert (Es : w_session W cl1 = w_session W cl2).
  { apply (D _ _ key1); auto; [exists j1, cl1, (OpWrite m1)|exists j2, cl2, (OpWrite m1)]; auto. }
  apply (set_last_spec C W k Rk) in H1 as (Nz & H1 & _), H2 as (_ & H2 & _). rewrite <- Es in H2.
  eapply (add_owner C W k Rk); eauto.
Qed.

Lemma seal_server_key i p c key n pt ct : event g i (EvSeal p c key n pt ct) -> server_key C g p key.
Proof.
  intros H. apply (seal_spec C g Rg) in H as (_ & _ & _ & (m & Hm) & sec & Hs & Hk).
  apply (handler_spec C g Rg L) in Hm as (host & id & ct' & key' & sec' & j & hj & idj & pub & sk & _ & _ & (_ & _ & _ & Hn & _) & _).
  pose proof (secret_is C g Rg _ _ _ _ _ Hs Hn) as <-. exists j, sec. auto.
Qed.

Lemma reply_serves cl c ct m : requests_unforged C W k g -> replies_unforged C W k g ->
  distinct_keys C W k -> adds (w_session W cl) (k_trace k) <= 2 ^ 64 -> accepted C W k cl c ct m ->
  exists n j i p req, nth_error (g_trace g) n = Some (i, EvHandler p c true req (HOk m)) /\
    serves C W k g n j /\ wrote_by k j cl c req.
Proof.
  intros U Ur D A Ac.
  destruct (reply_origin C W k Rk cl c ct m L g Rg Ac D A) as (key & Hk & Hct & O).
  destruct (Ur _ _ _ _ _ Ac Hk) as (i & p & c' & m' & Hs).
  pose proof (seal_server_key _ _ _ _ _ _ _ Hs) as Sk.
  destruct (O _ _ _ _ Hs) as (-> & -> & req & Hh & O').
  destruct (In_nth_error _ _ Hh) as [n Hn].
  assert (Hu : used W k (w_session W cl)).
  { destruct Ac as (i0 & n0 & key0 & St & _). exists i0, cl, (OpRead n0). auto. }
  destruct (U _ _ _ _ _ _ _ _ Hh Sk Hu Hk) as (j & s' & c'' & m'' & Hks).
  pose proof (handler_counter _ _ _ _ _ _ Hh) as Bc.
  pose proof (kseal_spec C W k Rk _ _ _ _ _ _ _ Hks) as (cl' & St & _ & _ & _ & _ & Bc' & _ & En & Ect).
  change (x00 :: repeat x00 3 ++ be_enc 8 c) with (gcm_nonce dir_c2s c) in *.
  apply gcm_nonce_inj in En as [_ <-]; try assumption.
  assert (m'' = req) as ->.
  { pose proof (gcm_open_seal _ L key (gcm_nonce dir_c2s c) m'') as G. rewrite <- Ect, (gcm_open_seal _ L) in G. congruence. }
  destruct (O' _ _ _ _ Hks) as (_ & _ & j' & Wr).
  exists n, j', i, p, req. split; [exact Hn|]. split; [|exact Wr].
  exists i, p, c, true, req, (HOk m), key, cl. auto.
Qed.
End Channel.
