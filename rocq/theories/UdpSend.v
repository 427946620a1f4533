(** Messages sent over UDP without asking for replies. *)
From Verif Require Import Bytes BytesProofs Parser ParserProofs Crypto Kdf Wire WireProofs WireSeq WireExtra Replay SpecReplay
  ReplayProofs Server ServerSeq SpecServer ServerProofs ServerProps ServerProps2 ServerProps3 MultiConn SpecMulti Keys KeysProofs
  System SpecSystem Client ClientSeq SpecClient ClientProofs SpecE2E E2EProofs LostProofs Udp SpecUdp UdpProofs UdpThms UdpMore UdpTalk
  SpecUdpLoss UdpLoss SpecUdpDup UdpDup.

Lemma ucrun_bind C E chunk send A B (p : cprog A) (g : A -> cprog B) : forall x s,
  ucrun C E chunk send (cbind p g) x s =
  match ucrun C E chunk send p x s with
  | (Some a, (x1, s1)) => ucrun C E chunk send (g a) x1 s1
  | (None, z) => (None, z)
  end.
Proof.
  induction p as [a| |R e k IH]; intros x s; [reflexivity|reflexivity|]. cbn [cbind ucrun].
  destruct (ucexec C E chunk send e x s) as [r [x1 s1]]. apply IH.
Qed.

Section Send.
  Variables (C : Crypto) (CE : cenv) (SE : senv) (hostof : bytes -> option bytes) (chunk : nat -> N) (send : nat -> bytes -> bool)
    (me : bytes) (o : copts) (ses : csession) (n : N) (chost key : bytes).
  Hypothesis L : CryptoLaws C.
  Hypothesis WC : forall i, ce_deadline CE i = true.
  Hypothesis Hsend : forall i b, lenN b <= 65507 -> send i b = true.
  Hypothesis Hh : hostof me = Some chost.
  Hypothesis Ho : co_reply o = false.
  Hypothesis Hid : length (cs_id ses) = 16%nat.
  Hypothesis K : client_gcm C (cs_secret ses) = Some key.

  Definition asked (c : N) (p : bytes) : bytes := enc_request (RqProcess (cs_id ses) c (gcm_seal C key (gcm_nonce dir_c2s c) p) false).
  Fixpoint asked_from (c : N) (ps : list bytes) : list bytes :=
    match ps with [] => [] | p :: ps' => asked c p :: asked_from (c + 1) ps' end.

  Lemma sends : forall ps u net s, udp_client u -> n_closed net = false -> c_ctr s + lenN ps < two64 ->
    Forall (fun p => lenN p + 50 <= 65507) ps ->
    exists u' n' s', ucrun C CE chunk send (exchange C o ses n ps) (u, net) s = (Some [], ((u', n'), s')) /\
      n_out n' = n_out net ++ map (pair None) (asked_from (c_ctr s + 1) ps).
  Proof.
    induction ps as [|p ps IH]; intros u net s Hu Hc Hlt Hp; cbn [exchange].
    - exists u, net, s. cbn. rewrite app_nil_r. auto.
    - rewrite lenN_cons in Hlt. inversion Hp as [|? ? P1 P2]; subst. rewrite ucrun_bind.
      destruct (write_sends C CE chunk send o ses L WC Hsend p u net s key Hu Hc Hid K ltac:(lia) P1)
        as (l & u1 & n1 & s1 & -> & U1 & U2 & U3 & U4 & U5 & U6 & U7 & U8). rewrite Ho in *.
      destruct (IH u1 n1 s1 U1 U4 ltac:(lia) P2) as (u2 & n2 & s2 & -> & O2).
      exists u2, n2, s2. split; [reflexivity|]. rewrite O2, U5, U6, <- app_assoc. reflexivity.
  Qed.
  Lemma serve_unasked p c hist ss sn : stored C ses chost hist ss -> Forall (fun c => c < two64) hist -> ~ refused_after hist c ->
    n_closed sn = false -> n_in sn = [] -> c < two64 -> lenN p + 50 <= 65507 -> (forall i, exists a, e_handler SE i false p = HOk a) ->
    exists r sn' ss', udp_exchange C SE hostof chunk send (arrive me (asked c p) sn) ss = (r, (sn', ss')) /\
      n_closed sn' = false /\ n_in sn' = [] /\ left_since sn sn' = [] /\
      seen (s_calls ss') = seen (s_calls ss) ++ [(c, false, p)] /\ stored C ses chost (hist ++ [c]) ss'.
  Proof.
    intros [Hwf Hkn] Hhist Hnr Hop Hin Hc Hp Hf. set (q := asked c p).
    destruct (exchange_flat C SE hostof chunk send (arrive me q sn) ss me q [] Hop ltac:(cbn; rewrite Hin; reflexivity))
      as (r & s1 & l & ok & sn' & ss' & -> & R & Hs1 & Hsent & Hfull & Hin' & Hcl' & Hout).
    set (E := dgram_env SE (hostof me)) in *. set (s0 := set_in ss q) in *.
    assert (Hin0 : s_in s0 = q ++ []) by (rewrite app_nil_r; reflexivity).
    set (ct := gcm_seal C key (gcm_nonce dir_c2s c) p) in *.
    assert (Hok : request_ok (RqProcess (cs_id ses) c ct false)).
    { split; [exact Hid|]. split; [exact Hc|]. unfold ct. rewrite (gcm_seal_len _ L). unfold max_message_size. lia. }
    assert (Hwf0 : wf s0) by (apply (wf_same ss); auto).
    set (E0 := shift (s_step s0) E).
    assert (Q0 : e_quit E0 (s_step s0) = false) by (cbn [E0 shift e_quit]; rewrite Nat.eqb_refl; reflexivity).
    pose proof (process_accepted C E0 s0 chost (cs_id ses) ct [] c false Hok Hin0 Q0 Hh) as PA.
    specialize (PA _ hist Hkn Hhist eq_refl Hwf0 Hnr key (eq_trans (eq_sym (client_server_gcm C _)) K) p (gcm_open_seal _ L _ _ _)).
    pose proof (WF_conn C E0 s0 Hwf0) as WF'.
    unfold E0 in PA, WF'. rewrite one_request_conn in PA, WF'. fold E0 in PA, WF'.
    rewrite R in PA, WF'. cbn [fst snd] in PA, WF'.
    destruct PA as ((ptr & Pc) & [Pk Pother] & Pin & i & Pr).
    change (e_handler E0 i false p) with (e_handler SE (pred i) false p) in Pr. destruct (Hf (pred i)) as (a & Ha). rewrite Ha in Pr.
    destruct Pr as [Pr _]. unfold silent in Pr. change (s_sent (tick s1)) with (s_sent s1) in Pr. change (s_sent s0) with (s_sent ss) in Pr.
    rewrite Pr in Hsent. rewrite <- (app_nil_r (s_sent ss)) in Hsent at 1. apply app_inv_head in Hsent. subst l.
    destruct Hout as [(_ & Hout & _)|(X & _)]; [|exfalso; apply X; reflexivity].
    do 3 eexists. split; [reflexivity|]. split; [exact Hcl'|]. split; [exact Hin'|]. split.
    { unfold left_since. rewrite Hout. cbn [arrive n_out]. rewrite skipn_all. reflexivity. }
    change (s_calls (tick s1)) with (s_calls s1) in Pc. change (s_calls s0) with (s_calls ss) in Pc.
    assert (X : s_calls ss' = s_calls s1) by (rewrite <- Hs1; reflexivity). rewrite X, Pc. split.
    { unfold seen. rewrite map_app. reflexivity. }
    split; [apply (wf_same (tick s1)); auto; rewrite <- Hs1; reflexivity|].
    rewrite <- Hs1 in Pk. exact Pk.
  Qed.

  Lemma refused_same hist c : Forall (fun c => c < two64) hist -> c < two64 -> fst (check_and_update (snd (checks new_window hist)) c) = false ->
    snd (checks new_window (hist ++ [c])) = snd (checks new_window hist).
  Proof.
    intros Hhist Hc F. rewrite checks_app. destruct (checks new_window hist) as [rs w]. cbn [fst snd] in *. cbn [checks].
    rewrite (stale_keeps w c F). reflexivity.
  Qed.

  (** Requests in any order, each any number of times. *)
  Lemma serve_any (msg : nat -> bytes) c0 idx : Forall (fun i => c0 + 1 + N.of_nat i < two64 /\ lenN (msg i) + 50 <= 65507 /\
      forall j, exists a, e_handler SE j false (msg i) = HOk a) idx -> forall hist ss sn,
    stored C ses chost hist ss -> Forall (fun c => c < two64) hist -> n_closed sn = false -> n_in sn = [] ->
    let cs := map (fun i => c0 + 1 + N.of_nat i) idx in
    let rs := fst (checks (snd (checks new_window hist)) cs) in
    exists sn' ss', serve_each C SE hostof chunk send me (map (fun i => asked (c0 + 1 + N.of_nat i) (msg i)) idx) sn ss =
        (map (fun _ => err5) (kept idx (map negb rs)), (sn', ss')) /\
      seen (s_calls ss') = seen (s_calls ss) ++ map (fun i => (c0 + 1 + N.of_nat i, false, msg i)) (kept idx rs).
  Proof.
    induction 1 as [|i idx (Hc & Hp & Hf) _ IH]; intros hist ss sn Hst Hhist Hop Hin; cbn [map serve_each checks].
    { exists sn, ss. cbn. rewrite app_nil_r. auto. }
    cbv zeta. set (c := c0 + 1 + N.of_nat i) in *.
    assert (Hh' : Forall (fun c => c < two64) (hist ++ [c])) by (apply Forall_app; split; [exact Hhist|repeat constructor; exact Hc]).
    assert (W : check_and_update (snd (checks new_window hist)) c =
      (fst (check_and_update (snd (checks new_window hist)) c), snd (checks new_window (hist ++ [c])))).
    { rewrite checks_app. destruct (checks new_window hist) as [rs w]. cbn [fst snd checks]. destruct (check_and_update w c); reflexivity. }
    destruct (fst (check_and_update (snd (checks new_window hist)) c)) eqn:F.
    - assert (Hnr : ~ refused_after hist c) by (apply fresh_iff; assumption).
      destruct (serve_unasked (msg i) c hist ss sn Hst Hhist Hnr Hop Hin Hc Hp Hf) as (r & sn1 & s1 & -> & A1 & A2 & A3 & A4 & A5).
      destruct (IH (hist ++ [c]) s1 sn1 A5 Hh' A1 A2) as (sn2 & s2 & R2 & B). cbv zeta in R2, B.
      rewrite R2, A3, W. destruct (checks (snd (checks new_window (hist ++ [c]))) _) as [rs w]. cbn [fst snd map negb kept app] in *.
      exists sn2, s2. split; [reflexivity|]. rewrite B, A4, <- app_assoc. reflexivity.
    - assert (Hr : refused_after hist c).
      { assert (D : In c (accepted hist (fst (checks new_window hist))) \/ ~ In c (accepted hist (fst (checks new_window hist)))) by (destruct (in_dec N.eq_dec c (accepted hist (fst (checks new_window hist)))); auto).
        pose proof (fresh_iff hist c Hhist Hc) as FI. rewrite F in FI. unfold refused_after in *. cbv zeta in *.
        destruct (N.eq_dec c 0); [left; assumption|]. destruct D; [right; left; assumption|].
        destruct (N.le_gt_cases (c + 64) (highest (accepted hist (fst (checks new_window hist))))); [right; right; assumption|].
        exfalso. assert (X : false = true); [|discriminate X]. apply FI. intros [X|[X|X]]; [contradiction|contradiction|lia]. }
      assert (Hct : lenN (gcm_seal C key (gcm_nonce dir_c2s c) (msg i)) <= max_message_size) by (rewrite (gcm_seal_len _ L); unfold max_message_size; lia).
      destruct (serve_again C CE SE hostof chunk send me o ses chost (fun b => b) WC Hsend Hh false hist ss sn c (gcm_seal C key (gcm_nonce dir_c2s c) (msg i)) Hst Hhist Hid Hc Hct Hr Hop Hin)
        as (r & sn1 & s1 & R1 & A1 & A2 & A3 & A4 & A5). unfold asked at 1. rewrite R1.
      destruct (IH hist s1 sn1 A5 Hhist A1 A2) as (sn2 & s2 & R2 & B). cbv zeta in R2, B.
      rewrite R2, A3, W, (refused_same hist c Hhist Hc F). destruct (checks (snd (checks new_window hist)) _) as [rs w]. cbn [fst snd map negb kept app] in *.
      exists sn2, s2. split; [reflexivity|]. rewrite B, A4. reflexivity.
  Qed.
End Send.

Lemma asked_nth C ses key : forall ps c i, (i < length ps)%nat -> nth i (asked_from C ses key c ps) [] = asked C ses key (c + N.of_nat i) (nth i ps []).
Proof.
  induction ps as [|p ps IH]; intros c i Hi; cbn [length] in Hi; [lia|]. destruct i as [|i]; cbn [asked_from nth].
  - f_equal. lia.
  - rewrite IH by lia. f_equal. lia.
Qed.

(** The whole: the client writes, the datagrams arrive in any order and number. *)
Lemma udp_unasked C CE SE hostof chunk send me o ses n chost ps idx hist cs u net sn ss : CryptoLaws C ->
  (forall i, ce_deadline CE i = true) -> (forall i b, lenN b <= 65507 -> send i b = true) -> hostof me = Some chost -> co_reply o = false ->
  paired C ses chost hist cs ss -> udp_client u -> n_closed net = false -> n_closed sn = false -> n_in sn = [] ->
  c_ctr cs + lenN ps < two64 -> Forall (fun p => lenN p + 50 <= 65507 /\ forall i, exists a, e_handler SE i false p = HOk a) ps ->
  Forall (fun i => (i < length ps)%nat) idx ->
  let '(w, ((_, net'), _)) := ucrun C CE chunk send (exchange C o ses n ps) (u, net) cs in
  let ds := left_since net net' in
  let '(back, (_, ss')) := serve_each C SE hostof chunk send me (map (fun i => nth i ds []) idx) sn ss in
  let number i := c_ctr cs + 1 + N.of_nat i in
  w = Some [] /\ length ds = length ps /\
  exists before rs final, length before = length hist /\ filter_run 64 [] (hist ++ map number idx) (before ++ rs) final /\
    seen (s_calls ss') = seen (s_calls ss) ++ map (fun i => (number i, false, nth i ps [])) (kept idx rs) /\
    length back = length (kept idx (map negb rs)).
Proof.
  intros L WC Hs Hh Ho [Hwf Hid Hkn Hhist Hbuf] Hu Hc Hops Hins Hlt Hp Hi.
  destruct (client_gcm_some C L (cs_secret ses)) as (key & K).
  assert (Hp1 : Forall (fun p => lenN p + 50 <= 65507) ps) by (eapply Forall_impl; [|exact Hp]; intros p [H _]; exact H).
  destruct (sends C CE chunk send o ses n key L WC Hs Ho Hid K ps u net cs Hu Hc Hlt Hp1) as (u' & net' & cs' & -> & O).
  cbv zeta. set (number := fun i => c_ctr cs + 1 + N.of_nat i).
  assert (D : left_since net net' = asked_from C ses key (c_ctr cs + 1) ps).
  { unfold left_since. rewrite O, skipn_app_exact, map_map. cbn. apply map_id. }
  assert (Len : length (left_since net net') = length ps).
  { rewrite D. clear. generalize (c_ctr cs + 1). induction ps as [|p ps IH]; intros c; cbn; [reflexivity|]. f_equal. apply IH. }
  assert (M : map (fun i => nth i (left_since net net') []) idx = map (fun i => asked C ses key (number i) (nth i ps [])) idx).
  { rewrite D. apply map_ext_in. intros i Hin. rewrite Forall_forall in Hi. apply asked_nth, Hi, Hin. }
  rewrite M.
  assert (Good : Forall (fun i => c_ctr cs + 1 + N.of_nat i < two64 /\ lenN (nth i ps []) + 50 <= 65507 /\
      forall j, exists a, e_handler SE j false (nth i ps []) = HOk a) idx).
  { rewrite Forall_forall in *. intros i Hin. specialize (Hi i Hin). split; [unfold lenN in Hlt; lia|]. apply Hp, nth_In, Hi. }
  assert (X : exists sn' ss', serve_each C SE hostof chunk send me (map (fun i => asked C ses key (number i) (nth i ps [])) idx) sn ss =
      (map (fun _ => err5) (kept idx (map negb (fst (checks (snd (checks new_window hist)) (map number idx))))), (sn', ss')) /\
    seen (s_calls ss') = seen (s_calls ss) ++ map (fun i => (number i, false, nth i ps [])) (kept idx (fst (checks (snd (checks new_window hist)) (map number idx))))).
  { exact (serve_any C CE SE hostof chunk send me o ses chost key L WC Hs Hh Hid K (fun i => nth i ps []) (c_ctr cs) idx Good hist ss sn (conj Hwf Hkn) Hhist Hops Hins). }
  destruct X as (sn' & ss' & R & B). rewrite R. split; [reflexivity|]. split; [exact Len|].
  assert (Hall : Forall (fun c => c < two64) (hist ++ map number idx)).
  { apply Forall_app. split; [exact Hhist|]. rewrite Forall_forall in *. intros c Hin. apply in_map_iff in Hin. destruct Hin as (i & <- & Hin). apply Good, Hin. }
  pose proof (checks_app new_window hist (map number idx)) as CA.
  destruct (checks_refine _ _ _ _ _ represents_init Hall CA) as (final & FR & _).
  destruct (checks_total new_window hist) as (b & w & Ew & Lb). rewrite Ew in *. cbn [fst snd] in *.
  exists b, (fst (checks w (map number idx))), final. split; [exact Lb|]. split; [exact FR|]. split; [exact B|]. apply map_length.
Qed.

Lemma kept_all {A} (l : list A) : kept l (repeat true (length l)) = l.
Proof. induction l as [|x l IH]; cbn; [reflexivity|]. rewrite IH. reflexivity. Qed.
Lemma kept_none {A} (l : list A) : kept l (map negb (repeat true (length l))) = [].
Proof. induction l as [|x l IH]; cbn; [reflexivity|exact IH]. Qed.

Lemma filter_final_nodup w seen cs rs s' : filter_run w seen cs rs s' -> NoDup seen -> NoDup s'.
Proof. induction 1 as [seen|seen c cs rs s' Ha F IH|seen c cs rs s' Ha F IH]; intros Hn; auto. apply IH. constructor; [apply Ha|exact Hn]. Qed.

(** Datagrams that lag less than 64 behind. *)
Lemma udp_unasked_window C CE SE hostof chunk send me o ses n chost ps idx hist cs u net sn ss : CryptoLaws C ->
  (forall i, ce_deadline CE i = true) -> (forall i b, lenN b <= 65507 -> send i b = true) -> hostof me = Some chost -> co_reply o = false ->
  paired C ses chost hist cs ss -> Forall (fun c => c <= c_ctr cs) hist ->
  udp_client u -> n_closed net = false -> n_closed sn = false -> n_in sn = [] ->
  c_ctr cs + lenN ps < two64 -> Forall (fun p => lenN p + 50 <= 65507 /\ forall i, exists a, e_handler SE i false p = HOk a) ps ->
  Forall (fun i => (i < length ps)%nat) idx -> NoDup idx ->
  (forall l i l', idx = l ++ i :: l' -> forall j, In j l -> (j < i + 64)%nat) ->
  let '(w, ((_, net'), _)) := ucrun C CE chunk send (exchange C o ses n ps) (u, net) cs in
  let ds := left_since net net' in
  let '(back, (_, ss')) := serve_each C SE hostof chunk send me (map (fun i => nth i ds []) idx) sn ss in
  w = Some [] /\ length ds = length ps /\ back = [] /\
  seen (s_calls ss') = seen (s_calls ss) ++ map (fun i => (c_ctr cs + 1 + N.of_nat i, false, nth i ps [])) idx.
Proof.
  intros L WC Hs Hh Ho P Hle Hu Hc Hops Hins Hlt Hp Hi Hnd Hlag.
  pose proof (udp_unasked C CE SE hostof chunk send me o ses n chost ps idx hist cs u net sn ss L WC Hs Hh Ho P Hu Hc Hops Hins Hlt Hp Hi) as G.
  destruct (ucrun C CE chunk send (exchange C o ses n ps) (u, net) cs) as [w [[u' net'] cs']]. cbv zeta in *.
  destruct (serve_each _ _ _ _ _ _ _ _ _) as [back [sn' ss']].
  destruct G as (G1 & G2 & b & rs & final & G3 & G4 & G5 & G6). split; [exact G1|]. split; [exact G2|].
  set (number := fun i => c_ctr cs + 1 + N.of_nat i) in *.
  assert (A : rs = repeat true (length idx)).
  { pose proof P as [_ _ _ Hhist _].
    destruct (checks new_window hist) as [b0 w0] eqn:Ew.
    destruct (checks_refine _ _ _ _ _ represents_init Hhist Ew) as (s0 & F0 & R0).
    assert (Hall : Forall (fun c => c < two64) (map number idx)).
    { rewrite Forall_forall in *. intros c Hin. apply in_map_iff in Hin. destruct Hin as (i & <- & Hin). specialize (Hi i Hin). unfold number, lenN in *. lia. }
    pose proof (checks_app new_window hist (map number idx)) as CA. rewrite Ew in CA. cbn [fst snd] in CA.
    destruct (checks_refine _ _ _ _ _ represents_init (proj2 (Forall_app _ _ _) (conj Hhist Hall)) CA) as (f1 & F1 & _).
    destruct (filter_run_det _ _ _ _ _ _ _ G4 F1) as [Eq _].
    assert (Lb : length b0 = length b).
    { destruct (checks_total new_window hist) as (x & y & Z & Lx). rewrite Ew in Z. injection Z as -> ->. congruence. }
    assert (X : rs = fst (checks w0 (map number idx))).
    { clear - Eq Lb. revert b0 Lb Eq. induction b as [|y b IH]; intros [|z b0] Lb Eq; try discriminate Lb; [exact Eq|].
      injection Eq as _ Eq. injection Lb as Lb. apply (IH b0); assumption. }
    rewrite X, <- (map_length number idx). apply (reorder_aux s0 w0 (map number idx) R0).
    - rewrite Forall_forall in *. intros c Hin. split; [|apply Hall, Hin]. apply in_map_iff in Hin. destruct Hin as (i & <- & _). unfold number. lia.
    - assert (S0 : forall x, In x s0 -> x <= c_ctr cs).
      { intros x Hx. apply (filter_seen _ _ _ _ _ F0) in Hx. destruct Hx as [[]|Hx]. apply accepted_sub in Hx. rewrite Forall_forall in Hle. apply Hle, Hx. }
      pose proof (filter_final_nodup _ _ _ _ _ F0 (NoDup_nil _)) as N0.
      clear - S0 N0 Hnd. induction Hnd as [|i idx Hni _ IH]; cbn [map app]; [exact N0|]. constructor; [|exact IH].
      intros Hin. apply in_app_or in Hin. destruct Hin as [Hin|Hin].
      + apply in_map_iff in Hin. destruct Hin as (j & E & Hj). apply Hni. replace i with j; [exact Hj|]. unfold number in E. lia.
      + apply S0 in Hin. unfold number in Hin. lia.
    - intros p c q E.
      assert (exists l i l', idx = l ++ i :: l' /\ p = map number l /\ c = number i) as (l & i & l' & -> & -> & ->).
      { clear - E. revert p E. induction idx as [|i idx IH]; intros p E; cbn [map] in E; [destruct p; discriminate E|]. destruct p as [|x p]; cbn [app] in E.
        - injection E as E _. exists [], i, idx. auto.
        - injection E as E0 E. destruct (IH p E) as (l & j & l' & Z1 & Z2 & Z3). exists (i :: l), j, l'. cbn. subst. auto. }
      assert (Hb : Forall (fun x => x <= number i + 63) (map number l ++ s0)); [|apply highest_le in Hb; lia].
      apply Forall_app. split; apply Forall_forall; intros x Hx.
      + apply in_map_iff in Hx. destruct Hx as (j & <- & Hj). specialize (Hlag l i l' eq_refl j Hj). unfold number. lia.
      + apply (filter_seen _ _ _ _ _ F0) in Hx. destruct Hx as [[]|Hx]. apply accepted_sub in Hx. rewrite Forall_forall in Hle. apply Hle in Hx. unfold number. lia. }
  rewrite A, kept_none in G6. rewrite A, kept_all in G5. split; [destruct back; [reflexivity|discriminate G6]|exact G5].
Qed.

(** Two messages change places. *)
Lemma udp_unasked_swap C CE SE hostof chunk send me o ses n chost a b hist cs u net sn ss : CryptoLaws C ->
  (forall i, ce_deadline CE i = true) -> (forall i b, lenN b <= 65507 -> send i b = true) -> hostof me = Some chost -> co_reply o = false ->
  paired C ses chost hist cs ss -> Forall (fun c => c <= c_ctr cs) hist ->
  udp_client u -> n_closed net = false -> n_closed sn = false -> n_in sn = [] ->
  c_ctr cs + 2 < two64 -> Forall (fun p => lenN p + 50 <= 65507 /\ forall i, exists a, e_handler SE i false p = HOk a) [a; b] ->
  let '(w, ((_, net'), _)) := ucrun C CE chunk send (exchange C o ses n [a; b]) (u, net) cs in
  exists d1 d2, left_since net net' = [d1; d2] /\
  let '(back, (_, ss')) := serve_each C SE hostof chunk send me [d2; d1] sn ss in
  w = Some [] /\ back = [] /\ seen (s_calls ss') = seen (s_calls ss) ++ [(c_ctr cs + 2, false, b); (c_ctr cs + 1, false, a)].
Proof.
  intros L WC Hs Hh Ho P Hle Hu Hc Hops Hins Hlt Hp.
  assert (H1 : Forall (fun i => (i < length [a; b])%nat) [1%nat; 0%nat]) by (repeat constructor).
  assert (H2 : NoDup [1%nat; 0%nat]) by (repeat constructor; cbn; intuition discriminate).
  assert (H3 : forall l i l', [1%nat; 0%nat] = l ++ i :: l' -> forall j, In j l -> (j < i + 64)%nat).
  { intros l i l' E j Hj. assert (In j [1%nat; 0%nat]) by (rewrite E; apply in_or_app; left; exact Hj). cbn in H. lia. }
  pose proof (udp_unasked_window C CE SE hostof chunk send me o ses n chost [a; b] [1%nat; 0%nat] hist cs u net sn ss L WC Hs Hh Ho P Hle Hu Hc Hops Hins Hlt Hp H1 H2 H3) as G.
  destruct (ucrun C CE chunk send (exchange C o ses n [a; b]) (u, net) cs) as [w [[u' net'] cs']]. cbv zeta in G.
  assert (D : exists d1 d2, left_since net net' = [d1; d2]).
  { destruct (serve_each _ _ _ _ _ _ _ _ _) as [back [sn' ss']]. destruct G as (_ & X & _).
    destruct (left_since net net') as [|d1 [|d2 [|d3 ds]]]; try discriminate X. eauto. }
  destruct D as (d1 & d2 & D). exists d1, d2. split; [exact D|]. rewrite D in G. cbn [map nth] in G.
  destruct (serve_each _ _ _ _ _ _ _ _ _) as [back [sn' ss']]. destruct G as (G1 & _ & G2 & G3). split; [exact G1|]. split; [exact G2|].
  rewrite G3. replace (c_ctr cs + 1 + N.of_nat 1) with (c_ctr cs + 2) by lia. replace (c_ctr cs + 1 + N.of_nat 0) with (c_ctr cs + 1) by lia. reflexivity.
Qed.
