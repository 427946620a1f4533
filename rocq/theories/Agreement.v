(** What a client that accepted a handshake knows about a server that signed it. *)
From Verif Require Import Bytes BytesProofs Parser Crypto Wire SpecLayout WireProofs WireSeq Server ServerSeq SpecServer Keys
  Conc SpecConc ConcProofs ConcThms Client ClientSeq SpecClient ClientProofs SpecE2E E2EProofs ClientProps.

Lemma agreement C (L : CryptoLaws C) g : reachable C g ->
  forall sk spub id secret, length spub = 32%nat -> x_dh C sk spub = Some secret ->
  forall i h r, event g i (EvSign h (doc_transcript (pkix_x25519 (x_pub C sk)) (pkix_x25519 spub) id) r) ->
  exists p host ssk, spub = x_pub C ssk /\
    set_up C g p i host id (x_pub C sk) ssk secret /\ event g i (EvStore (session_key C host id) p true).
Proof.
  intros R sk spub id secret Hl Hd i h r H. rewrite <- layout_transcript in H.
  apply (sign_session C g R) in H as (_ & host & id' & pub & ssk & p & sec & Su & Hm & St).
  assert (Hp : length pub = 32%nat).
  { destruct Su as (_ & (b0 & raw & _ & _ & _ & Hp) & _). eapply pkix_x_len; eassumption. }
  apply setup_transcript_inj in Hm as (H1 & H2 & H3); auto using (x_pub_len _ L).
  subst pub spub id'. exists p, host, ssk. split; [reflexivity|].
  assert (sec = secret) as <-; [|auto].
  destruct Su as (_ & _ & _ & _ & Sd). rewrite (x_dh_comm _ L) in Sd. congruence.
Qed.
Lemma accepted_agreement C (L : CryptoLaws C) E h s ses s' g :
  crun C E (handshake C (Some h)) s = (Some (inr ses), s') -> reachable C g ->
  exists pk sk spub hs sig, ce_fetch E h = Some pk /\ ce_gen E = Some sk /\
    let tr := doc_transcript (pkix_x25519 (x_pub C sk)) (pkix_x25519 spub) (cs_id ses) in
    good_signature C pk hs tr sig /\
    forall i h' r, event g i (EvSign h' tr r) ->
      exists p host ssk, set_up C g p i host (cs_id ses) (x_pub C sk) ssk (cs_secret ses) /\
        event g i (EvStore (session_key C host (cs_id ses)) p true).
Proof.
  intros H R. apply handshake_accepts in H as (h0 & pk & rnd & sk & spub & hb & hs & sig & o & [= <-] & Ef & _ & Eg & _ & _ & _ & Ho & _ & Gs & Hd).
  exists pk, sk, spub, hs, sig. split; [exact Ef|]. split; [exact Eg|]. cbv zeta. split; [exact Gs|].
  intros i h' r Hev. destruct Ho as (b0 & raw & _ & _ & Hp & _).
  destruct (agreement C L g R sk spub _ _ (pkix_x_len C L _ _ Hp) Hd i h' r Hev) as (p & host & ssk & _ & A).
  exists p, host, ssk. exact A.
Qed.
