(** Repeating a request over UDP until it is answered. *)
From Verif Require Import Bytes BytesProofs Parser ParserProofs Crypto Kdf Wire WireProofs WireSeq WireExtra Replay SpecReplay
  ReplayProofs Server ServerSeq SpecServer ServerProofs ServerProps ServerProps2 ServerProps3 MultiConn SpecMulti Keys KeysProofs
  Client ClientSeq SpecClient ClientProofs SpecE2E E2EProofs Udp SpecUdp UdpProofs UdpThms UdpMore UdpTalk SpecUdpLoss UdpLoss SpecInsist.

Lemma handled_trans p j k s1 s2 s3 : handled_times p j s1 s2 -> handled_times p k s2 s3 -> handled_times p (j + k) s1 s3.
Proof.
  intros (l & E & Hl & Fl) (m & E' & Hm & Fm). exists (l ++ m). rewrite E', E, app_assoc, app_length, Hl, Hm.
  split; [reflexivity|]. split; [reflexivity|]. apply Forall_app. auto.
Qed.

Section Insisting.
  Variables (C : Crypto) (CE : cenv) (SE : senv) (hostof : bytes -> option bytes) (chunk : nat -> N) (send : nat -> bytes -> bool)
    (me srv : bytes) (o : copts) (ses : csession) (n : N) (chost : bytes) (f : bytes -> bytes) (p : bytes).
  Hypothesis L : CryptoLaws C.
  Hypothesis WC : forall i, ce_deadline CE i = true.
  Hypothesis Hsend : forall i b, lenN b <= 65507 -> send i b = true.
  Hypothesis Hh : hostof me = Some chost.
  Hypothesis Ho : co_reply o = true.
  Hypothesis Hp : lenN p + 50 <= 65507.
  Hypothesis Hf : forall i, e_handler SE i true p = HOk (f p).
  Hypothesis Hr : f p <> [] /\ lenN (f p) + 33 <= 65507 /\ lenN (f p) <= n.

  Lemma insist_round ft hist cs x sn ss : llinked C ses chost hist cs x sn ss -> c_ctr cs + 1 < two64 ->
    let '(_, ((u, net), c1)) := ucrun C CE chunk send (client_write C o ses p) x cs in
    let '(ds, (sn1, s1)) := serve_lossy C SE hostof chunk send me ft (left_since (snd x) net) sn ss in
    let '(r, (x2, c2)) := ucrun C CE chunk send (client_read C o ses n) (u, arrive_all srv ds net) c1 in
    match ft with Arrives => r = Some (RdOk (f p) true) | _ => failed r end /\
    c_ctr c2 = c_ctr cs + 1 /\ (exists hist', llinked C ses chost hist' c2 x2 sn1 s1) /\
    handled_times p (match ft with RequestLost => 0 | _ => 1 end) ss s1.
  Proof.
    intros Hl Hc. pose proof (lossy_round C CE SE hostof chunk send me srv o ses n chost f L WC Hsend Hh Ho p ft 0 hist cs x sn ss Hl Hc Hp Hf Hr) as G.
    destruct (ucrun C CE chunk send (client_write C o ses p) x cs) as [w [[u net] c1]].
    destruct (serve_lossy _ _ _ _ _ _ _ _ _ _) as [ds [sn1 s1]]. cbn [udp_reads] in G.
    destruct (ucrun C CE chunk send (client_read C o ses n) _ c1) as [r [x2 c2]]. destruct G as (G1 & G2 & G3 & G4).
    split; [|split; [exact G2|split; [exact G3|]]].
    - destruct G1 as [_ G1]. destruct ft; [destruct G1 as (es & E & _); injection E; auto| |]; inversion G1; assumption.
    - eexists. split; [exact G4|]. destruct ft; cbn; auto.
  Qed.

  Lemma insist_all : forall fs hist cs x sn ss, llinked C ses chost hist cs x sn ss -> c_ctr cs + lenN fs < two64 ->
    let '((a, k), ((_, cs'), (_, ss'))) := insist C CE SE hostof chunk send me srv o ses n p fs x cs sn ss in
    c_ctr cs' = c_ctr cs + N.of_nat k /\
    exists tried rest, fs = tried ++ rest /\ length tried = k /\
    handled_times p (count_fate Arrives tried + count_fate ReplyLost tried) ss ss' /\
    match a with
    | Some m => m = f p /\ exists lost, tried = lost ++ [Arrives] /\ ~ In Arrives lost
    | None => rest = [] /\ ~ In Arrives tried
    end.
  Proof.
    induction fs as [|ft fs IH]; intros hist cs x sn ss Hl Hc; cbn [insist].
    - split; [cbn; lia|]. exists [], []. cbn. split; [reflexivity|]. split; [reflexivity|]. split; [|auto].
      exists []. rewrite app_nil_r. auto.
    - rewrite lenN_cons in Hc. pose proof (insist_round ft hist cs x sn ss Hl ltac:(lia)) as G.
      destruct (ucrun C CE chunk send (client_write C o ses p) x cs) as [w [[u net] c1]].
      destruct (serve_lossy _ _ _ _ _ _ _ _ _ _) as [ds [sn1 s1]].
      destruct (ucrun C CE chunk send (client_read C o ses n) _ c1) as [r [x2 c2]]. destruct G as (G1 & G2 & (hist' & G3) & G4).
      assert (K : ft = Arrives \/ (ft <> Arrives /\ failed r)).
      { destruct ft; [left; reflexivity| |]; right; (split; [discriminate|exact G1]). }
      destruct K as [->|[Hne (e & ->)]].
      + subst r. split; [lia|]. exists [Arrives], fs. split; [reflexivity|]. split; [reflexivity|]. split; [exact G4|].
        split; [reflexivity|]. exists []. split; [reflexivity|]. intros [].
      + specialize (IH hist' c2 x2 sn1 s1 G3 ltac:(lia)).
        destruct (insist C CE SE hostof chunk send me srv o ses n p fs x2 c2 sn1 s1) as [[a k] [[x3 c3] [sn3 s3]]].
        destruct IH as (I1 & tried & rest & I2 & I3 & I4 & I5). split; [lia|].
        exists (ft :: tried), rest. split; [cbn; rewrite I2; reflexivity|]. split; [cbn; lia|]. split.
        { pose proof (handled_trans _ _ _ _ _ _ G4 I4) as H. destruct ft; [congruence| |]; unfold count_fate in *; cbn [filter fate_eqb length] in *.
          - exact H.
          - rewrite Nat.add_succ_r. exact H. }
        destruct a as [m|].
        * destruct I5 as [I5 (lost & I6 & I7)]. split; [exact I5|]. exists (ft :: lost). split; [cbn; rewrite I6; reflexivity|].
          intros [X|X]; [congruence|auto].
        * destruct I5 as [I5 I6]. split; [exact I5|]. intros [X|X]; [congruence|auto].
  Qed.
End Insisting.

Lemma first_arrives : forall a b r s, a ++ Arrives :: r = b ++ Arrives :: s -> ~ In Arrives a -> ~ In Arrives b -> a = b.
Proof.
  induction a as [|x a IH]; intros [|y b] r s E Ha Hb; cbn in *; [reflexivity| | |].
  - injection E as E _. exfalso. apply Hb. left. congruence.
  - injection E as E _. exfalso. apply Ha. left. congruence.
  - injection E as -> E. f_equal. eapply IH; [exact E| |]; intro; [apply Ha|apply Hb]; right; assumption.
Qed.
Lemma count_none a fs : ~ In a fs -> count_fate a fs = 0%nat.
Proof.
  unfold count_fate. induction fs as [|x fs IH]; intro H; [reflexivity|]. cbn [filter].
  destruct (fate_eqb a x) eqn:E; [exfalso; apply H; left; destruct a, x; (reflexivity || discriminate)|]. apply IH. intro. apply H. right. assumption.
Qed.
Lemma count_app a fs gs : count_fate a (fs ++ gs) = (count_fate a fs + count_fate a gs)%nat.
Proof. unfold count_fate. rewrite filter_app, app_length. reflexivity. Qed.

Lemma insist_many C CE SE hostof chunk send me srv o ses n chost f p lost rest hist cs u net sn ss : CryptoLaws C ->
  (forall i, ce_deadline CE i = true) -> (forall i b, lenN b <= 65507 -> send i b = true) -> hostof me = Some chost -> co_reply o = true ->
  paired C ses chost hist cs ss -> Forall (fun c => c <= c_ctr cs) hist ->
  udp_client u -> n_closed net = false -> n_in net = [] -> n_closed sn = false -> n_in sn = [] ->
  c_ctr cs + lenN (lost ++ Arrives :: rest) < two64 ->
  lenN p + 50 <= 65507 -> (forall i, e_handler SE i true p = HOk (f p)) -> f p <> [] /\ lenN (f p) + 33 <= 65507 /\ lenN (f p) <= n ->
  ~ In Arrives lost ->
  let '(r, (_, (_, ss'))) := insist C CE SE hostof chunk send me srv o ses n p (lost ++ Arrives :: rest) (u, net) cs sn ss in
  r = (Some (f p), S (length lost)) /\ handled_times p (S (count_fate ReplyLost lost)) ss ss'.
Proof.
  intros L WC Hs Hh Ho P Hle Hu H1 H2 H3 H4 Hc Hp Hf Hr Hlost.
  pose proof (insist_all C CE SE hostof chunk send me srv o ses n chost f p L WC Hs Hh Ho Hp Hf Hr (lost ++ Arrives :: rest) hist cs (u, net) sn ss) as G.
  destruct (insist _ _ _ _ _ _ _ _ _ _ _ _ _ _ _ _ _) as [[a k] [[x' cs'] [sn' ss']]].
  destruct G as (_ & tried & rest' & G1 & G2 & G3 & G4); [split; cbn; auto|exact Hc|].
  destruct a as [m|].
  - destruct G4 as [-> (lost' & -> & G5)]. rewrite <- app_assoc in G1. cbn in G1. apply first_arrives in G1; [|assumption|assumption]. subst lost'.
    rewrite app_length in G2. cbn in G2. split; [f_equal; lia|]. rewrite !count_app, (count_none Arrives lost Hlost) in G3. cbn in G3.
    rewrite Nat.add_0_r in G3. exact G3.
  - destruct G4 as [-> G4]. exfalso. apply G4. rewrite app_nil_r in G1. rewrite <- G1. apply in_or_app. right. left. reflexivity.
Qed.

Lemma insist_safe C CE SE hostof chunk send me srv o ses n chost f p fs hist cs u net sn ss : CryptoLaws C ->
  (forall i, ce_deadline CE i = true) -> (forall i b, lenN b <= 65507 -> send i b = true) -> hostof me = Some chost -> co_reply o = true ->
  paired C ses chost hist cs ss -> Forall (fun c => c <= c_ctr cs) hist ->
  udp_client u -> n_closed net = false -> n_in net = [] -> n_closed sn = false -> n_in sn = [] ->
  c_ctr cs + lenN fs < two64 ->
  lenN p + 50 <= 65507 -> (forall i, e_handler SE i true p = HOk (f p)) -> f p <> [] /\ lenN (f p) + 33 <= 65507 /\ lenN (f p) <= n ->
  let '((a, k), (_, (_, ss'))) := insist C CE SE hostof chunk send me srv o ses n p fs (u, net) cs sn ss in
  (k <= length fs)%nat /\ (a = Some (f p) <-> In Arrives fs) /\ (a = None <-> ~ In Arrives fs) /\
  exists j, handled_times p j ss ss' /\ (j <= k)%nat /\ (a <> None -> (1 <= j)%nat) /\ (~ In ReplyLost fs -> (j <= 1)%nat).
Proof.
  intros L WC Hs Hh Ho P Hle Hu H1 H2 H3 H4 Hc Hp Hf Hr.
  pose proof (insist_all C CE SE hostof chunk send me srv o ses n chost f p L WC Hs Hh Ho Hp Hf Hr fs hist cs (u, net) sn ss) as G.
  destruct (insist _ _ _ _ _ _ _ _ _ _ _ _ _ _ _ _ _) as [[a k] [[x' cs'] [sn' ss']]].
  destruct G as (_ & tried & rest' & G1 & G2 & G3 & G4); [split; cbn; auto|exact Hc|].
  assert (Hk : (k <= length fs)%nat) by (rewrite G1, app_length; lia). split; [exact Hk|].
  assert (Cnt : forall l : list fate, (count_fate Arrives l + count_fate ReplyLost l <= length l)%nat).
  { unfold count_fate. induction l as [|[] l IH]; cbn [filter fate_eqb length]; lia. }
  destruct a as [m|].
  - destruct G4 as [-> (lost & -> & G5)].
    assert (I : In Arrives fs) by (rewrite G1; apply in_or_app; left; apply in_or_app; right; left; reflexivity).
    split; [tauto|]. split; [split; [discriminate|tauto]|]. eexists. split; [exact G3|].
    specialize (Cnt (lost ++ [Arrives])). rewrite !count_app, (count_none Arrives lost G5) in *. cbn in *.
    split; [lia|]. split; [lia|]. intro N0. rewrite (count_none ReplyLost lost); [lia|].
    intro. apply N0. rewrite G1. apply in_or_app. left. apply in_or_app. left. assumption.
  - destruct G4 as [-> G4]. rewrite app_nil_r in G1. subst tried. split; [split; [discriminate|tauto]|]. split; [tauto|].
    eexists. split; [exact G3|]. specialize (Cnt fs). split; [lia|]. split; [congruence|]. intro N0.
    rewrite (count_none _ _ G4), (count_none _ _ N0). lia.
Qed.
