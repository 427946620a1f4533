(** Lemmas for C186: a program that dials again and whose address changes. *)
From Verif Require Import Bytes BytesProofs Parser ParserProofs Crypto Kdf Wire WireProofs WireSeq WireExtra Replay SpecReplay
  ReplayProofs Server ServerSeq SpecServer ServerProofs ServerProps ServerProps2 ServerProps3 MultiConn SpecMulti Keys KeysProofs
  Client ClientSeq SpecClient ClientProofs SpecE2E E2EProofs Udp SpecUdp UdpThms
  SpecUdpLoss UdpLoss SpecUdpDup SpecRoam RoamProofs SpecRestart RestartProofs SpecPersist PersistProofs SpecWander.

Section Wandering.
  Variables (C : Crypto) (CEs : nat -> cenv) (SE : senv) (hostof : bytes -> option bytes) (chunk : nat -> N) (send : nat -> bytes -> bool)
    (srv : bytes) (o : copts) (host : bytes) (n : N) (chost0 : bytes) (ssk : privkey) (f : bytes -> bytes) (csk rnd : nat -> bytes)
    (hosts : bytes -> Prop) (top : nat).
  Hypothesis L : CryptoLaws C.
  Hypothesis U : forall k, undisturbed C (CEs k) SE chost0 host (csk k) (rnd k) ssk.
  Hypothesis Hsend : forall i b, lenN b <= 65507 -> send i b = true.
  Hypothesis Hsg : forall i m sig, e_sign SE i SHA512 m = KOk sig -> lenN sig + 54 <= 65507.
  Hypothesis Ho : co_reply o = true.
  Let id (k : nat) : bytes := uuid_of (rnd k).
  Hypothesis Hkeys : forall h h' j k, hosts h -> hosts h' -> (j <= top)%nat -> (k <= top)%nat -> (h, j) <> (h', k) -> session_key C h (id j) <> session_key C h' (id k).

  Lemma id_len k : length (id k) = 16%nat.
  Proof. apply uuid_length. apply (u_rand _ _ _ _ _ _ _ _ (U k)). Qed.

  (** Ids of dials to come are unknown everywhere. *)
  Definition unused (k : nat) (ss : sst) : Prop := forall h j, hosts h -> (k <= j <= top)%nat -> known C ss h (id j) = None.
  (** The client [c] was dialled from the host [hc] and is unknown elsewhere. *)
  Definition based (k : nat) (hc : bytes) (c : uclient) (sn : unet) (ss : sst) : Prop :=
    hosts hc /\ (served C hc c sn ss \/ unserved C hc c sn ss) /\
    exists j, (j < k)%nat /\ id_of c = id j /\ forall h, hosts h -> h <> hc -> known C ss h (id j) = None.
  Definition lives (b : bool) (k : nat) (h : bytes) (cl : option uclient) (sn : unet) (ss : sst) : Prop :=
    (wf ss /\ n_closed sn = false /\ n_in sn = []) /\ unused k ss /\
    match cl with
    | None => True
    | Some c => exists hc, based k hc c sn ss /\ (b = true \/ hc = h /\ served C hc c sn ss)
    end.

  Lemma elsewhere k hc c sn ss h : based k hc c sn ss -> hosts h -> h <> hc -> unserved C h c sn ss.
  Proof.
    destruct c as [[[E ses] x] cs]. intros (_ & S & j & _ & Hi & Hn) Hh Hne. change (cs_id ses = id j) in Hi. specialize (Hn h Hh Hne). rewrite <- Hi in Hn.
    destruct S as [(WC & hist & [[Hwf Hid Hkn Hhist Hbuf] Hle Hcl Hop Hin])|(WC & [O1 O2 O3 O4 O5 O6 O7])]; (split; [exact WC|]); split; assumption.
  Qed.
  Lemma sound c h sn ss : served C h c sn ss -> wf ss /\ n_closed sn = false /\ n_in sn = [].
  Proof. destruct c as [[[E ses] x] cs]. intros (_ & hist & [[Hwf _ _ _ _] _ _ [_ H1] [_ H2]]). auto. Qed.

  Lemma lives_restart b k h cl sn ss : lives b k h cl sn ss -> lives true k h cl (reopen sn) (reboot ss).
  Proof.
    intros (_ & Hu & Hcl). split; [split; [apply wf_reboot|auto]|]. split; [intros h' j _ _; reflexivity|]. destruct cl as [[[[E ses] x] cs]|]; [|exact I].
    destruct Hcl as (hc & (H1 & H2 & j & H3 & H4 & _) & _). exists hc. split; [|left; reflexivity]. split; [exact H1|]. split; [|exists j; repeat split; auto].
    right. destruct H2 as [(WC & hist & [[Hwf Hid Hkn Hhist Hbuf] Hle Hcl [Hop Hops] [Hin Hins]])|(WC & [O1 O2 O3 O4 O5 [O6 _] [O7 _]])]; (split; [exact WC|]).
    - split; [apply wf_reboot|exact Hid|reflexivity|exact Hbuf|exact Hcl|cbn; auto|cbn; auto].
    - split; [apply wf_reboot|exact O2|reflexivity|exact O4|exact O5|cbn; auto|cbn; auto].
  Qed.
  Lemma known_drop keep ss h i : known C (drop_sessions keep ss) h i = if keep (session_key C h i) then known C ss h i else None.
  Proof. unfold known. cbn. destruct (keep _); reflexivity. Qed.
  Lemma lives_drop keep b k h cl sn ss : lives b k h cl sn ss -> lives true k h cl sn (drop_sessions keep ss).
  Proof.
    intros ((Hwf & Hs) & Hu & Hcl). split; [split; [apply wf_drop, Hwf|exact Hs]|]. split.
    { intros h' j Hh' Hj. rewrite known_drop, (Hu h' j Hh' Hj). destruct (keep _); reflexivity. }
    destruct cl as [c|]; [|exact I]. destruct Hcl as (hc & (H1 & H2 & j & H3 & H4 & H5) & _). exists hc. split; [|left; reflexivity]. split; [exact H1|]. split.
    - assert (S : standing C hc true (Some c) sn ss) by (destruct H2; [left; assumption|right; auto]).
      apply (standing_drop C hc keep) in S. destruct S as [S|[_ S]]; [left|right]; exact S.
    - exists j. split; [exact H3|]. split; [exact H4|]. intros h' Hh' Hne. rewrite known_drop, (H5 h' Hh' Hne). destruct (keep _); reflexivity.
  Qed.
  Lemma lives_move b k h h' cl sn ss : lives b k h cl sn ss -> lives true k h' cl sn ss.
  Proof. intros (H1 & H2 & H3). split; [exact H1|]. split; [exact H2|]. destruct cl; [|exact I]. destruct H3 as (hc & H3 & _). exists hc. auto. Qed.

  (** A dial makes it good. *)
  Lemma lives_dial k me h p sn ss : hostof me = Some h -> hosts h -> wf ss -> n_closed sn = false -> n_in sn = [] -> unused k ss -> (k <= top)%nat -> fine SE n f p ->
    exists c' sn' ss', dial_and_ask C CEs SE hostof chunk send me srv o host n k p sn ss = ([Some (RdOk (f p) true)], (Some c', (sn', ss'))) /\
      lives false (S k) h (Some c') sn' ss' /\ ctr_of c' = 1 /\ texts ss' = texts ss ++ [p].
  Proof.
    intros Hm Hh Hwf Hc Hi Hu Hk Hp.
    destruct (dial_and_ask_ok C CEs SE hostof chunk send me srv o host n chost0 h ssk f L (fun k => ex_intro _ _ (ex_intro _ _ (U k))) Hsend Hm Hsg Ho k p sn ss Hwf Hc Hi Hp)
      as (c' & sn' & ss' & E & D1 & D2 & D3 & D4).
    destruct (D4 _ _ (U k)) as (D5 & D6). exists c', sn', ss'. split; [exact E|]. split; [|auto]. split; [exact (sound _ _ _ _ D1)|]. split.
    - intros h' j Hh' Hj. rewrite D6; [apply Hu; [exact Hh'|lia]|apply id_len|]. apply (Hkeys h' h j k); auto; [lia|]. intro X. injection X as _ X. lia.
    - exists h. split; [|right; auto]. split; [exact Hh|]. split; [left; exact D1|]. exists k. split; [lia|]. split; [exact D5|].
      intros h' Hh' Hne. rewrite D6; [apply Hu; [exact Hh'|lia]|apply id_len|]. apply (Hkeys h' h k k); auto. intro X. apply Hne. injection X. auto.
  Qed.

  Lemma wander_all : forall l b k me h cl sn ss, lives b k h cl sn ss -> hostof me = Some h -> hosts h ->
    Forall (fun a => exists h, hostof a = Some h /\ hosts h) (places l) -> (k + length l <= S top)%nat ->
    used cl + lenN (words l) < two64 -> Forall (fine SE n f) (words l) ->
    let '(rs, (k', ss')) := wander C CEs SE hostof chunk send srv o host n k me cl l sn ss in
    rs = map (fun p => Some (RdOk (f p) true)) (words l) /\ texts ss' = texts ss ++ words l /\
    (k' <= k + upsets l + match cl with None => 1 | Some _ => if b then 1 else 0 end)%nat.
  Proof.
    induction l as [|[[p| |keep]|a] l IH]; intros b k me h cl sn ss Hs Hm Hh Ha Hk Hc Hf.
    - cbn. split; [reflexivity|]. split; [symmetry; apply app_nil_r|lia].
    - change (words (Stay (Say p) :: l)) with (p :: words l) in *. change (upsets (Stay (Say p) :: l)) with (upsets l). change (places (Stay (Say p) :: l)) with (places l) in Ha.
      rewrite lenN_cons in Hc. cbn [length] in Hk. inversion Hf as [|? ? Hp Hf']; subst. destruct Hs as ((Hwf & Hop & Hin) & Hu & Hcl).
      assert (G : forall sn' ss', wf ss' -> n_closed sn' = false -> n_in sn' = [] -> unused k ss' -> texts ss' = texts ss ->
        let '(r2, (cl', (sn2, ss2))) := dial_and_ask C CEs SE hostof chunk send me srv o host n k p sn' ss' in
        let '(rs, (k', ss3)) := wander C CEs SE hostof chunk send srv o host n (S k) me cl' l sn2 ss2 in
        r2 ++ rs = map (fun p => Some (RdOk (f p) true)) (p :: words l) /\ texts ss3 = texts ss ++ p :: words l /\ (k' <= k + upsets l + 1)%nat).
      { intros sn' ss' W1 W2 W3 W4 W5. destruct (lives_dial k me h p sn' ss' Hm Hh W1 W2 W3 W4 ltac:(lia) Hp) as (c2 & sn2 & ss2 & -> & D1 & D2 & D3).
        specialize (IH false (S k) me h (Some c2) sn2 ss2 D1 Hm Hh Ha ltac:(lia)). cbn [used] in IH. rewrite D2 in IH. specialize (IH ltac:(lia) Hf').
        destruct (wander _ _ _ _ _ _ _ _ _ _ (S k) me (Some c2) l sn2 ss2) as [rs [k' s']]. destruct IH as (-> & I2 & I3).
        split; [reflexivity|]. split; [rewrite I2, D3, W5, <- app_assoc; reflexivity|]. lia. }
      cbn [wander]. destruct cl as [c|].
      + destruct Hcl as (hc & Hb & Hbb). cbn [used] in Hc.
        assert (Cases : hc = h /\ served C h c sn ss \/ b = true /\ unserved C h c sn ss).
        { destruct Hbb as [->|[-> S]]; [|auto]. destruct (bytes_eqb_spec hc h) as [->|Hne].
          - destruct Hb as (_ & [S|S] & _); auto.
          - right. split; [reflexivity|]. apply (elsewhere k hc); auto. }
        destruct Cases as [[-> S]|[-> S]].
        * destruct (ask_served C SE hostof chunk send me srv o n h f L Hsend Hm Ho c p sn ss S ltac:(lia) Hp) as (c' & sn' & ss' & -> & A1 & A2 & A3 & A4 & A5). cbn [says_unknown].
          destruct Hb as (_ & _ & j & B1 & B2 & B3).
          assert (Lv : lives false k h (Some c') sn' ss').
          { split; [exact (sound _ _ _ _ A1)|]. split.
            - intros h' j' Hh' Hj'. rewrite A5; [apply Hu; auto|]. rewrite B2. apply Hkeys; auto; try lia. intro X. injection X as _ X. lia.
            - exists h. split; [|auto]. split; [exact Hh|]. split; [left; exact A1|]. exists j. split; [exact B1|]. split; [congruence|].
              intros h' Hh' Hne. rewrite A5; [apply B3; auto|]. rewrite B2. apply Hkeys; auto; try lia. intro X. apply Hne. injection X. auto. }
          specialize (IH false k me h (Some c') sn' ss' Lv Hm Hh Ha ltac:(lia)). cbn [used] in IH. rewrite A2 in IH. specialize (IH ltac:(lia) Hf').
          destruct (wander _ _ _ _ _ _ _ _ _ _ k me (Some c') l sn' ss') as [rs [k' s']]. destruct IH as (-> & I2 & I3).
          split; [reflexivity|]. split; [rewrite I2, A3, <- app_assoc; reflexivity|]. lia.
        * destruct (ask_unserved C SE hostof chunk send me srv o n h f L Hsend Hm Ho c p sn ss S ltac:(lia) Hp) as (c' & sn' & ss' & -> & A1 & A2 & A3 & A4 & A5).
          change (says_unknown [Some (RdErr (RdRemote 3 msg_unknown))]) with true. cbv iota.
          specialize (G sn' ss' A1 A2 A3). destruct (dial_and_ask _ _ _ _ _ _ _ _ _ _ _ _ _ _ _) as [r2 [cl' [sn2 ss2]]].
          destruct (wander _ _ _ _ _ _ _ _ _ _ _ _ cl' l sn2 ss2) as [rs [k' s']]. apply G; [|exact A4].
          intros h' j Hh' Hj. rewrite A5. apply Hu; auto.
      + specialize (G sn ss Hwf Hop Hin Hu eq_refl). destruct (dial_and_ask _ _ _ _ _ _ _ _ _ _ _ _ _ _ _) as [r2 [cl' [sn2 ss2]]].
        destruct (wander _ _ _ _ _ _ _ _ _ _ _ _ cl' l sn2 ss2) as [rs [k' s']]. exact G.
    - change (words (Stay Restart :: l)) with (words l) in *. change (upsets (Stay Restart :: l)) with (S (upsets l)). change (places (Stay Restart :: l)) with (places l) in Ha.
      cbn [wander length] in *. specialize (IH true k me h cl _ _ (lives_restart _ _ _ _ _ _ Hs) Hm Hh Ha ltac:(lia) Hc Hf).
      destruct (wander _ _ _ _ _ _ _ _ _ _ _ _ _ _ _ _) as [rs [k' s']]. destruct IH as (I1 & I2 & I3). split; [exact I1|]. split; [exact I2|]. destruct cl, b; lia.
    - change (words (Stay (Drop keep) :: l)) with (words l) in *. change (upsets (Stay (Drop keep) :: l)) with (S (upsets l)). change (places (Stay (Drop keep) :: l)) with (places l) in Ha.
      cbn [wander length] in *. specialize (IH true k me h cl _ _ (lives_drop keep _ _ _ _ _ _ Hs) Hm Hh Ha ltac:(lia) Hc Hf).
      destruct (wander _ _ _ _ _ _ _ _ _ _ _ _ _ _ _ _) as [rs [k' s']]. destruct IH as (I1 & I2 & I3). split; [exact I1|]. split; [exact I2|]. destruct cl, b; lia.
    - change (words (Move a :: l)) with (words l) in *. change (upsets (Move a :: l)) with (S (upsets l)). change (places (Move a :: l)) with (a :: places l) in Ha.
      inversion Ha as [|? ? (h2 & Hm2 & Hh2) Ha']; subst. cbn [wander length] in *.
      specialize (IH true k a h2 cl sn ss (lives_move _ _ _ h2 _ _ _ Hs) Hm2 Hh2 Ha' ltac:(lia) Hc Hf).
      destruct (wander _ _ _ _ _ _ _ _ _ _ _ _ _ _ _ _) as [rs [k' s']]. destruct IH as (I1 & I2 & I3). split; [exact I1|]. split; [exact I2|]. destruct cl, b; lia.
  Qed.
End Wandering.

Lemma wandering C CEs SE hostof chunk send me srv o host n chost ssk f csk rnd l sn ss : CryptoLaws C ->
  (forall k, undisturbed C (CEs k) SE chost host (csk k) (rnd k) ssk) ->
  (forall i b, lenN b <= 65507 -> send i b = true) ->
  (forall i m sig, e_sign SE i SHA512 m = KOk sig -> lenN sig + 54 <= 65507) -> co_reply o = true ->
  wf ss -> n_closed sn = false -> n_in sn = [] -> lenN (words l) < two64 ->
  (forall a, In a (me :: places l) -> hostof a <> None) ->
  (forall a h k, In a (me :: places l) -> hostof a = Some h -> (k <= length l)%nat -> known C ss h (uuid_of (rnd k)) = None) ->
  (forall a a' h h' j k, In a (me :: places l) -> In a' (me :: places l) -> hostof a = Some h -> hostof a' = Some h' -> (j <= length l)%nat -> (k <= length l)%nat ->
     session_key C h (uuid_of (rnd j)) = session_key C h' (uuid_of (rnd k)) -> h = h' /\ j = k) ->
  Forall (fun p => lenN p + 50 <= 65507 /\ (forall i, e_handler SE i true p = HOk (f p)) /\ f p <> [] /\ lenN (f p) + 33 <= 65507 /\ lenN (f p) <= n) (words l) ->
  let '(rs, (dials, ss')) := wander C CEs SE hostof chunk send srv o host n 0 me None l sn ss in
  rs = map (fun p => Some (RdOk (f p) true)) (words l) /\ map snd (s_calls ss') = map snd (s_calls ss) ++ words l /\ (dials <= 1 + upsets l)%nat.
Proof.
  intros L U Hs Hsg Ho W H1 H2 Hc Hres Hfresh Hinj Hf.
  set (hosts := fun h => exists a, In a (me :: places l) /\ hostof a = Some h).
  assert (Hkeys : forall h h' j k, hosts h -> hosts h' -> (j <= length l)%nat -> (k <= length l)%nat -> (h, j) <> (h', k) -> session_key C h (uuid_of (rnd j)) <> session_key C h' (uuid_of (rnd k))).
  { intros h h' j k (a & Ha & Ea) (a' & Ha' & Ea') Hj Hk Hne X. apply Hne. destruct (Hinj a a' h h' j k) as [-> ->]; auto. }
  destruct (hostof me) as [h|] eqn:Hm; [|exfalso; exact (Hres me (or_introl eq_refl) Hm)].
  assert (Lv : lives C rnd hosts (length l) false 0 h None sn ss).
  { split; [auto|]. split; [|exact I]. intros h' j (a & Ha & Ea) Hj. apply (Hfresh a); auto. lia. }
  pose proof (wander_all C CEs SE hostof chunk send srv o host n chost ssk f csk rnd hosts (length l) L U Hs Hsg Ho Hkeys l false 0 me h None sn ss Lv Hm
    (ex_intro _ me (conj (or_introl eq_refl) Hm))) as P.
  cbn [used] in P. destruct (wander _ _ _ _ _ _ _ _ _ _ _ _ _ _ _ _) as [rs [k s']]. destruct P as (P1 & P2 & P3).
  { apply Forall_forall. intros a Ha. destruct (hostof a) as [h'|] eqn:E; [|exfalso; exact (Hres a (or_intror Ha) E)]. exists h'. split; [reflexivity|]. exists a. split; [right; exact Ha|exact E]. }
  { lia. } { lia. } { exact Hf. }
  split; [exact P1|]. split; [|lia].
  assert (X : forall l0, map snd (seen l0) = map snd l0).
  { intro l0. unfold seen. rewrite map_map. apply map_ext. intros [[[? ?] ?] ?]. reflexivity. }
  unfold texts in P2. rewrite !X in P2. exact P2.
Qed.
