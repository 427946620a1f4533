(** Lemmas for C186: a program that dials again. *)
From Verif Require Import Bytes BytesProofs Parser ParserProofs Crypto Kdf Wire WireProofs WireSeq WireExtra Replay SpecReplay
  ReplayProofs Server ServerSeq SpecServer ServerProofs ServerProps ServerProps2 ServerProps3 MultiConn SpecMulti Keys KeysProofs
  Client ClientSeq SpecClient ClientProofs SpecE2E E2EProofs LostProofs SpecSystem DuoTalk Udp SpecUdp UdpProofs UdpThms UdpMore UdpTalk
  SpecUdpLoss UdpLoss SpecUdpDup UdpDup SetupTwiceProofs SetupDialProofs SpecRoam RoamProofs SpecRestart RestartProofs SpecPersist.

Lemma receive_out x b x' : udp_receive x = (b, x') -> n_out (snd x') = n_out (snd x).
Proof. destruct x as [u net]. cbn [udp_receive]. destruct (n_closed net); [intro H; inversion H; reflexivity|]. destruct (n_in net) as [|[a d] q]; intro H; inversion H; reflexivity. Qed.
Lemma read1_out k x r x' : udp_read1 k x = (r, x') -> n_out (snd x') = n_out (snd x).
Proof.
  unfold udp_read1. destruct (u_read (fst x)).
  - destruct x as [u net]. destruct (Udp.buf_read k (u_rbuf u)); intro H; inversion H; reflexivity.
  - destruct (udp_receive x) as [[|] y] eqn:R; apply receive_out in R; [|intro H; inversion H; subst; exact R].
    destruct y as [u net]. cbn [fst snd] in *. destruct (Udp.buf_read k (u_rbuf u)); intro H; inversion H; subst; exact R.
Qed.
Lemma take_out chunk : forall fuel n x r x', udp_take chunk fuel n x = (r, x') -> n_out (snd x') = n_out (snd x).
Proof.
  induction fuel as [|fu IH]; intros n x r x' H; cbn [udp_take] in H; [inversion H; reflexivity|].
  destruct (n =? 0); [inversion H; reflexivity|]. destruct (udp_read1 _ x) as [[g [e|]] y] eqn:R; apply read1_out in R; [inversion H; subst; exact R|].
  destruct (udp_take chunk fu (n - lenN g) y) as [[m e] z] eqn:T. apply IH in T. inversion H; subst. congruence.
Qed.
Lemma nowrite_out C E chunk send A (p : cprog A) : nowrite p -> forall x s r x' s', ucrun C E chunk send p x s = (r, (x', s')) -> n_out (snd x') = n_out (snd x).
Proof.
  induction p as [a| |R e k IH]; intros Hp x s r x' s' H; cbn [ucrun] in H; [inversion H; reflexivity|inversion H; reflexivity|].
  destruct Hp as [Hw Hk]. destruct (ucexec C E chunk send e x s) as [a [y t]] eqn:X. apply (IH a (Hk a)) in H. rewrite H. clear H IH Hk.
  destruct e; try contradiction; cbn [ucexec] in X.
  all: try (destruct (cexec C E _ s) as [? ?] in X; inversion X; reflexivity).
  - unfold udp_readfull in X. destruct (udp_take chunk (udp_fuel x) n x) as [[g [[|]|]] z] eqn:T; apply take_out in T; inversion X; subst; exact T.
  - unfold udp_copy in X. destruct (udp_take chunk (udp_fuel x) n x) as [[g [[|]|]] z] eqn:T; apply take_out in T; inversion X; subst; exact T.
Qed.

Lemma dial_sends C CE chunk send host pk rnd csk u net cs :
  (forall i b, lenN b <= 65507 -> send i b = true) ->
  ce_fetch CE host = Some pk -> ce_rand CE = Some rnd -> length rnd = 16%nat -> ce_gen CE = Some csk -> length (x_pub C csk) = 32%nat ->
  udp_client u -> n_closed net = false ->
  forall r x' cs', ucrun C CE chunk send (handshake C (Some host)) (u, net) cs = (r, (x', cs')) ->
  left_since net (snd x') = [enc_request (RqSetup (uuid_of rnd) (x_pub C csk))].
Proof.
  intros Hsend Ef Er Hrl Eg Hpl Hu Hc r x' cs' H. set (id := uuid_of rnd). set (rq := enc_request (RqSetup id (x_pub C csk))).
  assert (Hid : length id = 16%nat) by (apply uuid_length, Hrl).
  set (c1 := c_add_sent (c_tick cs) rq (lenN rq)).
  set (n1 := {| n_in := n_in net; n_out := n_out net ++ [(None, rq)]; n_step := S (n_step net); n_closed := n_closed net |}).
  assert (P1 : ucrun C CE chunk send (handshake C (Some host)) (u, net) cs = ucrun C CE chunk send (hs_rest C pk id csk) (u_set_read u false, n1) c1).
  { rewrite handshake_head. cbn [ucrun ucexec cexec]. rewrite Ef. cbn [ucrun ucexec cexec]. rewrite Er. cbn [ucrun ucexec cexec]. rewrite Eg. cbv zeta.
    change (enc_setup_req (new_setup_request (uuid_of rnd) (x_pub C csk))) with rq. cbn [ucrun ucexec].
    unfold udp_write, net_send. destruct Hu as [H1 H2]. rewrite H1, Hc. rewrite Hsend.
    2:{ unfold rq. rewrite len_setup_req; [lia|exact Hid|exact Hpl]. }
    cbn [andb negb]. rewrite N.eqb_refl. cbn [negb]. unfold n1. rewrite Hc. reflexivity. }
  rewrite P1 in H. apply (nowrite_out C CE chunk send _ _ (nowrite_rest C pk id csk)) in H. exact (left_since_out _ _ _ _ H).
Qed.

Lemma wf_drop keep s : wf s -> wf (drop_sessions keep s).
Proof.
  intros [W1 W2 W3]. split; cbn.
  - intros k p. destruct (keep k); [apply W1|discriminate].
  - intros k k' p. destruct (keep k); [|discriminate]. destruct (keep k'); [|discriminate]. apply W2.
  - exact W3.
Qed.

Section Persisting.
  Variables (C : Crypto) (CEs : nat -> cenv) (SE : senv) (hostof : bytes -> option bytes) (chunk : nat -> N) (send : nat -> bytes -> bool)
    (me srv : bytes) (o : copts) (host : bytes) (n : N) (chost0 chost : bytes) (ssk : privkey) (f : bytes -> bytes).
  Hypothesis L : CryptoLaws C.
  Hypothesis U : forall k, exists csk rnd, undisturbed C (CEs k) SE chost0 host csk rnd ssk.
  Hypothesis Hsend : forall i b, lenN b <= 65507 -> send i b = true.
  Hypothesis Hh : hostof me = Some chost.
  Hypothesis Hsg : forall i m sig, e_sign SE i SHA512 m = KOk sig -> lenN sig + 54 <= 65507.
  Hypothesis Ho : co_reply o = true.

  Definition fine (p : bytes) : Prop :=
    lenN p + 50 <= 65507 /\ (forall i, e_handler SE i true p = HOk (f p)) /\ f p <> [] /\ lenN (f p) + 33 <= 65507 /\ lenN (f p) <= n.
  Definition served (c : uclient) (sn : unet) (ss : sst) : Prop :=
    let '(E, ses, x, cs) := c in (forall i, ce_deadline E i = true) /\ exists hist, llinked C ses chost hist cs x sn ss.
  Definition unserved (c : uclient) (sn : unet) (ss : sst) : Prop :=
    let '(E, ses, x, cs) := c in (forall i, ce_deadline E i = true) /\ orphan C ses chost cs x sn ss.
  Definition ctr_of (c : uclient) : N := c_ctr (snd c).
  Definition id_of (c : uclient) : bytes := cs_id (snd (fst (fst c))).
  Definition texts (s : sst) : list bytes := map snd (seen (s_calls s)).

  Lemma redial_ok k sn ss : wf ss -> n_closed sn = false -> n_in sn = [] ->
    exists c sn1 ss1, redial C CEs SE hostof chunk send me srv host k sn ss = (Some c, (sn1, ss1)) /\ served c sn1 ss1 /\ ctr_of c = 0 /\ s_calls ss1 = s_calls ss /\
      forall csk rnd, undisturbed C (CEs k) SE chost0 host csk rnd ssk -> id_of c = uuid_of rnd /\
        forall h i, length i = 16%nat -> session_key C h i <> session_key C chost (uuid_of rnd) -> known C ss1 h i = known C ss h i.
  Proof.
    intros Hwf Hc Hin. destruct (U k) as (csk & rnd & Uk). unfold redial.
    destruct (ucrun C (CEs k) chunk send (handshake C (Some host)) (new_udp false, new_socket) new_cst) as [r0 [[u0 n0] c0]] eqn:R0.
    destruct (u_fetch _ _ _ _ _ _ _ _ Uk) as (alg & pk & Fk & Fc). destruct (u_rand _ _ _ _ _ _ _ _ Uk) as [Hr Hrl].
    assert (Hu : udp_client (new_udp false)) by (split; reflexivity).
    pose proof (dial_sends C (CEs k) chunk send host pk rnd csk _ new_socket new_cst Hsend Fc Hr Hrl (u_gen _ _ _ _ _ _ _ _ Uk) (x_pub_len _ L _) Hu eq_refl _ _ _ R0) as Q.
    cbn [snd] in Q. rewrite Q.
    pose proof (dial_once C (CEs k) SE hostof chunk send me srv chost0 chost host csk rnd ssk L Uk Hsend Hh Hsg ss sn Hwf Hc Hin) as D. cbv zeta in D.
    destruct (serve_each _ _ _ _ _ _ _ _ _) as [out [sn2 s2]]. destruct D as (D1 & _ & _ & D2 & D3 & D).
    assert (Ha : n_closed (arrive_all srv out new_socket) = false /\ n_in (arrive_all srv out new_socket) = map (pair srv) out).
    { destruct out as [|b [|]]; try discriminate D2. split; reflexivity. }
    destruct Ha as [Ha1 Ha2]. specialize (D (new_udp false) (arrive_all srv out new_socket) new_cst Hu Ha1 Ha2 eq_refl).
    destruct (ucrun C (CEs k) chunk send (handshake C (Some host)) (new_udp false, arrive_all srv out new_socket) new_cst) as [h [[u3 net3] cs3]].
    destruct D as (_ & Dc & ses2 & -> & Di & Dp). do 3 eexists. split; [reflexivity|]. split.
    { split; [apply (proj2 (u_client _ _ _ _ _ _ _ _ Uk))|exists []; exact Dp]. }
    split; [exact Dc|]. split; [exact D1|]. intros csk' rnd' Uk'.
    assert (X : rnd' = rnd) by (pose proof (proj1 (u_rand _ _ _ _ _ _ _ _ Uk')); congruence). subst rnd'. split; [exact Di|exact D3].
  Qed.

  Lemma ask_served c p sn ss : served c sn ss -> ctr_of c + 1 < two64 -> fine p ->
    exists c' sn' ss', ask C SE hostof chunk send me srv o n c p sn ss = ([Some (RdOk (f p) true)], (c', (sn', ss'))) /\
      served c' sn' ss' /\ ctr_of c' = ctr_of c + 1 /\ texts ss' = texts ss ++ [p] /\ id_of c' = id_of c /\
      forall h i, session_key C h i <> session_key C chost (id_of c) -> known C ss' h i = known C ss h i.
  Proof.
    destruct c as [[[E ses] x] cs]. intros (WC & hist & Hl) Hc (Hp & F1 & F2 & F3 & F4). unfold ctr_of in *. cbn [snd ask] in *.
    pose proof (paired_round C E SE hostof chunk send me srv o ses n chost f L WC Hsend Ho Hh p hist cs x sn ss Hl Hc Hp F1 F2 F3 F4) as G.
    destruct (roam _ _ _ _ _ _ _ _ _ _ _ _ _ _) as [r [[x2 c2] [sn2 s2]]]. destruct G as (-> & G2 & G3 & G4 & G5).
    do 3 eexists. split; [reflexivity|]. split; [split; assumption|]. split; [exact G2|]. split; [unfold texts; rewrite G4, map_app; reflexivity|].
    split; [reflexivity|exact G5].
  Qed.
  Lemma ask_unserved c p sn ss : unserved c sn ss -> ctr_of c + 1 < two64 -> fine p ->
    exists c' sn' ss', ask C SE hostof chunk send me srv o n c p sn ss = ([Some (RdErr (RdRemote 3 msg_unknown))], (c', (sn', ss'))) /\
      wf ss' /\ n_closed sn' = false /\ n_in sn' = [] /\ texts ss' = texts ss /\ same_sessions C ss ss'.
  Proof.
    destruct c as [[[E ses] x] cs]. intros (WC & Hl) Hc (Hp & _). unfold ctr_of in *. cbn [snd ask] in *.
    pose proof (orphan_round C E SE hostof chunk send me srv o ses n chost L WC Hsend Ho Hh p cs x sn ss Hl Hc Hp) as G.
    destruct (roam _ _ _ _ _ _ _ _ _ _ _ _ _ _) as [r [[x2 c2] [sn2 s2]]]. destruct G as (-> & G2 & [O1 _ _ _ _ [_ O2] [_ O3]] & G4 & G5).
    do 3 eexists. split; [reflexivity|]. split; [exact O1|]. split; [exact O2|]. split; [exact O3|]. split; [unfold texts; rewrite G4; reflexivity|exact G5].
  Qed.
  Lemma dial_and_ask_ok k p sn ss : wf ss -> n_closed sn = false -> n_in sn = [] -> fine p ->
    exists c' sn' ss', dial_and_ask C CEs SE hostof chunk send me srv o host n k p sn ss = ([Some (RdOk (f p) true)], (Some c', (sn', ss'))) /\
      served c' sn' ss' /\ ctr_of c' = 1 /\ texts ss' = texts ss ++ [p] /\
      forall csk rnd, undisturbed C (CEs k) SE chost0 host csk rnd ssk -> id_of c' = uuid_of rnd /\
        forall h i, length i = 16%nat -> session_key C h i <> session_key C chost (uuid_of rnd) -> known C ss' h i = known C ss h i.
  Proof.
    intros Hwf Hc Hin Hp. unfold dial_and_ask. destruct (redial_ok k sn ss Hwf Hc Hin) as (c & sn1 & ss1 & -> & D1 & D2 & D3 & D4).
    destruct (ask_served c p sn1 ss1 D1) as (c' & sn' & ss' & -> & A1 & A2 & A3 & A4 & A5); [rewrite D2; reflexivity|exact Hp|].
    do 3 eexists. split; [reflexivity|]. split; [exact A1|]. split; [rewrite A2, D2; reflexivity|]. split; [rewrite A3; unfold texts; rewrite D3; reflexivity|].
    intros csk rnd Uk. destruct (D4 csk rnd Uk) as (E1 & E2). split; [congruence|]. intros h i Hi Hk. rewrite A5, E2; auto. rewrite E1. exact Hk.
  Qed.

  (** What is true of the client between two incidents; [b]: it may have lost its
      session since it was last served. *)
  Definition standing (b : bool) (cl : option uclient) (sn : unet) (ss : sst) : Prop :=
    match cl with
    | None => wf ss /\ n_closed sn = false /\ n_in sn = []
    | Some c => served c sn ss \/ b = true /\ unserved c sn ss
    end.
  Definition used (cl : option uclient) : N := match cl with Some c => ctr_of c | None => 0 end.

  Lemma standing_restart b cl sn ss : standing b cl sn ss -> standing true cl (reopen sn) (reboot ss).
  Proof.
    destruct cl as [[[[E ses] x] cs]|]; cbn [standing]; [|intros _; split; [apply wf_reboot|auto]].
    intros [(WC & hist & [[Hwf Hid Hkn Hhist Hbuf] Hle Hcl [Hop Hops] [Hin Hins]])|(_ & WC & O)]; right; split; auto; split; auto.
    - split; [apply wf_reboot|exact Hid|reflexivity|exact Hbuf|exact Hcl|cbn; auto|cbn; auto].
    - destruct O as [O1 O2 O3 O4 O5 [O6 _] [O7 _]]. split; [apply wf_reboot|exact O2|reflexivity|exact O4|exact O5|cbn; auto|cbn; auto].
  Qed.
  Lemma standing_drop keep b cl sn ss : standing b cl sn ss -> standing true cl sn (drop_sessions keep ss).
  Proof.
    destruct cl as [[[[E ses] x] cs]|]; cbn [standing]; [|intros (H1 & H2); split; [apply wf_drop, H1|exact H2]].
    assert (K : known C (drop_sessions keep ss) chost (cs_id ses) = if keep (session_key C chost (cs_id ses)) then known C ss chost (cs_id ses) else None).
    { unfold known. cbn. destruct (keep _); reflexivity. }
    intros [(WC & hist & [[Hwf Hid Hkn Hhist Hbuf] Hle Hcl Hop Hin])|(_ & WC & [O1 O2 O3 O4 O5 O6 O7])].
    - destruct (keep (session_key C chost (cs_id ses))) eqn:Ek.
      + left. split; [exact WC|]. exists hist. split; auto. split; auto; [apply wf_drop, Hwf|rewrite K; exact Hkn].
      + right. split; [reflexivity|]. split; [exact WC|]. split; auto. apply wf_drop, Hwf.
    - right. split; [reflexivity|]. split; [exact WC|]. split; auto; [apply wf_drop, O1|]. rewrite K, O3. destruct (keep _); reflexivity.
  Qed.

  Lemma persist_all : forall l b k cl sn ss, standing b cl sn ss -> used cl + lenN (spoken l) < two64 -> Forall fine (spoken l) ->
    let '(rs, (k', ss')) := persist C CEs SE hostof chunk send me srv o host n k cl l sn ss in
    rs = map (fun p => Some (RdOk (f p) true)) (spoken l) /\ texts ss' = texts ss ++ spoken l /\
    (k' <= k + losses l + match cl with None => 1 | Some _ => if b then 1 else 0 end)%nat.
  Proof.
    induction l as [|[p| |keep] l IH]; intros b k cl sn ss Hs Hc Hf.
    - cbn. split; [reflexivity|]. split; [symmetry; apply app_nil_r|lia].
    - change (spoken (Say p :: l)) with (p :: spoken l) in *. change (losses (Say p :: l)) with (losses l). rewrite lenN_cons in Hc.
      inversion Hf as [|? ? Hp Hf']; subst. destruct cl as [c|]; cbn [persist standing used] in *.
      + destruct Hs as [Hs|(Hb & Hs)].
        * destruct (ask_served c p sn ss Hs ltac:(lia) Hp) as (c' & sn' & ss' & -> & A1 & A2 & A3 & _). cbn [says_unknown].
          specialize (IH false k (Some c') sn' ss' (or_introl A1)). cbn [used] in IH. rewrite A2 in IH. specialize (IH ltac:(lia) Hf').
          destruct (persist _ _ _ _ _ _ _ _ _ _ _ k (Some c') l sn' ss') as [rs [k' s']]. destruct IH as (-> & I2 & I3).
          split; [reflexivity|]. split; [rewrite I2, A3, <- app_assoc; reflexivity|]. lia.
        * destruct (ask_unserved c p sn ss Hs ltac:(lia) Hp) as (c' & sn' & ss' & -> & A1 & A2 & A3 & A4 & _).
          change (says_unknown [Some (RdErr (RdRemote 3 msg_unknown))]) with true. cbv iota.
          destruct (dial_and_ask_ok k p sn' ss' A1 A2 A3 Hp) as (c2 & sn2 & ss2 & -> & D1 & D2 & D3 & _).
          specialize (IH false (S k) (Some c2) sn2 ss2 (or_introl D1)). cbn [used] in IH. rewrite D2 in IH. specialize (IH ltac:(lia) Hf').
          destruct (persist _ _ _ _ _ _ _ _ _ _ _ (S k) (Some c2) l sn2 ss2) as [rs [k' s']]. destruct IH as (-> & I2 & I3).
          split; [reflexivity|]. split; [rewrite I2, D3, A4, <- app_assoc; reflexivity|]. subst b. lia.
      + destruct Hs as (H1 & H2 & H3). destruct (dial_and_ask_ok k p sn ss H1 H2 H3 Hp) as (c2 & sn2 & ss2 & -> & D1 & D2 & D3 & _).
        specialize (IH false (S k) (Some c2) sn2 ss2 (or_introl D1)). cbn [used] in IH. rewrite D2 in IH. specialize (IH ltac:(lia) Hf').
        destruct (persist _ _ _ _ _ _ _ _ _ _ _ (S k) (Some c2) l sn2 ss2) as [rs [k' s']]. destruct IH as (-> & I2 & I3).
        split; [reflexivity|]. split; [rewrite I2, D3, <- app_assoc; reflexivity|]. lia.
    - change (spoken (Restart :: l)) with (spoken l) in *. change (losses (Restart :: l)) with (S (losses l)). cbn [persist].
      specialize (IH true k cl _ _ (standing_restart _ _ _ _ Hs) Hc Hf). destruct (persist _ _ _ _ _ _ _ _ _ _ _ _ _ _ _ _) as [rs [k' s']].
      destruct IH as (I1 & I2 & I3). split; [exact I1|]. split; [exact I2|]. destruct cl, b; lia.
    - change (spoken (Drop keep :: l)) with (spoken l) in *. change (losses (Drop keep :: l)) with (S (losses l)). cbn [persist].
      specialize (IH true k cl _ _ (standing_drop keep _ _ _ _ Hs) Hc Hf). destruct (persist _ _ _ _ _ _ _ _ _ _ _ _ _ _ _ _) as [rs [k' s']].
      destruct IH as (I1 & I2 & I3). split; [exact I1|]. split; [exact I2|]. destruct cl, b; lia.
  Qed.
End Persisting.

Lemma persisting C CEs SE hostof chunk send me srv o host n chost ssk f l sn ss : CryptoLaws C ->
  (forall k, exists csk rnd, undisturbed C (CEs k) SE chost host csk rnd ssk) ->
  (forall i b, lenN b <= 65507 -> send i b = true) -> hostof me = Some chost ->
  (forall i m sig, e_sign SE i SHA512 m = KOk sig -> lenN sig + 54 <= 65507) -> co_reply o = true ->
  wf ss -> n_closed sn = false -> n_in sn = [] -> lenN (spoken l) < two64 ->
  Forall (fun p => lenN p + 50 <= 65507 /\ (forall i, e_handler SE i true p = HOk (f p)) /\ f p <> [] /\ lenN (f p) + 33 <= 65507 /\ lenN (f p) <= n) (spoken l) ->
  let '(rs, (dials, ss')) := persist C CEs SE hostof chunk send me srv o host n 0 None l sn ss in
  rs = map (fun p => Some (RdOk (f p) true)) (spoken l) /\ map snd (s_calls ss') = map snd (s_calls ss) ++ spoken l /\ (dials <= 1 + losses l)%nat.
Proof.
  intros L U Hs Hh Hsg Ho W H1 H2 Hc Hf.
  pose proof (persist_all C CEs SE hostof chunk send me srv o host n chost chost ssk f L U Hs Hh Hsg Ho l false 0 None sn ss (conj W (conj H1 H2))) as P.
  cbn [used] in P. specialize (P ltac:(lia) Hf). destruct (persist _ _ _ _ _ _ _ _ _ _ _ _ _ _ _ _) as [rs [k s']]. destruct P as (P1 & P2 & P3).
  split; [exact P1|]. split; [|lia].
  assert (X : forall l0, map snd (seen l0) = map snd l0).
  { intro l0. unfold seen. rewrite map_map. apply map_ext. intros [[[? ?] ?] ?]. reflexivity. }
  unfold texts in P2. rewrite !X in P2. exact P2.
Qed.
