From Verif Require Import Bytes BytesProofs Parser ParserProofs Crypto Kdf Wire WireProofs WireSeq WireExtra
  Replay SpecReplay ReplayProofs Server ServerSeq SpecServer ServerProofs ServerProps ServerProps2 ServerProps3
  Toy ServerExamples.

(** An empty ciphertext authenticates under no key. *)
Lemma empty_never_opens C (L : CryptoLaws C) k n : gcm_open C k n [] = None.
Proof.
  destruct (gcm_open C k n []) as [p|] eqn:E; [|reflexivity].
  apply (gcm_open_inv C L) in E. apply (f_equal lenN) in E. rewrite (gcm_seal_len C L) in E. cbn in E. lia.
Qed.

Definition top : N := two64 - 1.

Lemma set_in_known C s i h d : known C (set_in s i) h d = known C s h d.
Proof. reflexivity. Qed.

Lemma forged_blocks C (L : CryptoLaws C) E s host id ses hist c msg reply :
  wf s -> e_host E = Some host -> (forall i, e_quit E i = false) ->
  known C s host id = Some ses -> Forall (fun x => x < two64) hist ->
  snd (checks new_window hist) = ses_win ses ->
  ~ refused_after hist top ->
  request_ok (RqProcess id c msg reply) -> c + 64 <= top ->
  let forged := RqProcess id top [] false in
  let s1 := snd (srun C E (conn_body C) (set_in s (enc_request forged))) in
  let '(_, s2) := srun C E (conn_body C) (set_in s1 (enc_request (RqProcess id c msg reply))) in
  no_calls s s1 /\ no_calls s1 s2 /\ exists t, responded s1 s2 (RsError 5 t).
Proof.
  intros Hwf Hh Hq Hk Hhist Hwin Hf Hok Hc. cbv zeta.
  destruct (new_gcm_total C L (ses_secret ses)) as (key & Hkey & _).
  assert (Hokf : request_ok (RqProcess id top [] false)).
  { destruct Hok as (Hid & _). split; [exact Hid|]. split; [reflexivity|]. cbn. unfold max_message_size. lia. }
  pose proof (process_unauthentic C E (set_in s (enc_request (RqProcess id top [] false))) host id [] [] top false
    Hokf (eq_sym (app_nil_r _)) (Hq _) Hh ses hist Hk Hhist Hwin (wf_same s (set_in s (enc_request (RqProcess id top [] false))) Hwf eq_refl eq_refl eq_refl) Hf key Hkey
    (empty_never_opens C L _ _)) as P.
  destruct (srun C E (conn_body C) (set_in s (enc_request (RqProcess id top [] false)))) as [r1 s1].
  destruct P as (_ & Pc & [Pk _] & _ & _). cbn [snd].
  assert (Hr : refused_after (hist ++ [top]) c).
  { unfold refused_after. cbv zeta. right; right.
    assert (Ht : top < two64) by reflexivity.
    assert (Hin : In top (accepted (hist ++ [top]) (fst (checks new_window (hist ++ [top]))))).
    { pose proof (proj2 (fresh_iff hist top Hhist Ht) Hf) as Hfr.
      rewrite checks_app. destruct (checks_total new_window hist) as (rs & w & Ew & Hlen). rewrite Ew in *.
      cbn [snd] in Hfr. destruct (check_and_update w top) as [b w2] eqn:Ec. cbn [fst] in Hfr. subst b.
      cbn [checks fst snd]. rewrite Ec. cbn [fst snd].
      clear - Hlen. revert rs Hlen. generalize top as c0. intros c0. induction hist as [|x h IH]; intros [|y rs] Hl; try discriminate Hl; cbn.
      - left; reflexivity.
      - apply in_or_app. right. apply IH. injection Hl; auto. }
    apply highest_in in Hin. lia. }
  pose proof (process_replay C E (set_in s1 (enc_request (RqProcess id c msg reply))) host id msg [] c reply Hok
    (eq_sym (app_nil_r _)) (Hq _) Hh _ (hist ++ [top]) Pk) as R.
  cbn [ses_win] in R. specialize (R ltac:(apply Forall_app; split; [exact Hhist|repeat constructor]) eq_refl Hr).
  destruct (srun C E (conn_body C) (set_in s1 (enc_request (RqProcess id c msg reply)))) as [r2 s2].
  destruct R as (R1 & R2 & _). auto.
Qed.

(** Concrete: an authentic request that would be delivered is refused. *)
Definition deliveries (s s' : sst) : list (N * bool * bytes) :=
  map (fun x => match x with (_, c, r, m) => (c, r, m) end) (skipn (length (s_calls s)) (s_calls s')).
Lemma forged_example :
  let forged := RqProcess ex_id top [] false in
  let good := ex_process 1 [x41] true in
  let run_ s r := snd (srun toy ex_E (conn_body toy) (set_in s (enc_request r))) in
  let s := ex_s [] in
  deliveries s (run_ s good) = [(1, true, [x41])] /\
  deliveries s (run_ (run_ s forged) good) = [].
Proof. vm_compute. split; reflexivity. Qed.

(** Sessions after do not depend on what the handler does. *)
Lemma handler_independent C E1 E2 s host id ctr msg reply rest ses hist key pt :
  let rq := RqProcess id ctr msg reply in
  request_ok rq -> s_in s = enc_request rq ++ rest ->
  e_quit E1 (s_step s) = false -> e_quit E2 (s_step s) = false ->
  e_host E1 = Some host -> e_host E2 = Some host ->
  known C s host id = Some ses -> Forall (fun c => c < two64) hist ->
  snd (checks new_window hist) = ses_win ses -> wf s -> ~ refused_after hist ctr ->
  new_gcm C (ses_secret ses) = Some key ->
  gcm_open C key (gcm_nonce dir_c2s ctr) msg = Some pt ->
  let s1 := snd (srun C E1 (conn_body C) s) in
  let s2 := snd (srun C E2 (conn_body C) s) in
  same_sessions C s1 s2 /\ s_in s1 = s_in s2.
Proof.
  cbv zeta. intros Hok Hin Hq1 Hq2 Hh1 Hh2 Hk Hhist Hwin Hwf Hf Hkey Hopen.
  pose proof (process_accepted C E1 s host id msg rest ctr reply Hok Hin Hq1 Hh1 ses hist Hk Hhist Hwin Hwf Hf key Hkey pt Hopen) as P1.
  pose proof (process_accepted C E2 s host id msg rest ctr reply Hok Hin Hq2 Hh2 ses hist Hk Hhist Hwin Hwf Hf key Hkey pt Hopen) as P2.
  destruct (srun C E1 (conn_body C) s) as [r1 s1], (srun C E2 (conn_body C) s) as [r2 s2]. cbn [snd].
  destruct P1 as (_ & [W1 W1'] & I1 & _), P2 as (_ & [W2 W2'] & I2 & _). split; [|congruence].
  intros h i. destruct (list_eq_dec Byte.byte_eq_dec (session_key C h i) (session_key C host id)) as [E|E].
  - unfold known in *. rewrite E. congruence.
  - rewrite W1', W2' by exact E. reflexivity.
Qed.

(** A rejected message of which the announced content is executed. *)
Lemma reinterpreted C E s id n r rest : length id = 16%nat -> 2 ^ 16 < n -> n < 2 ^ 32 ->
  lenN (enc_request r ++ rest) = n -> request_ok r ->
  (forall i, e_quit E i = false) -> writes_all E ->
  s_in s = [x12] ++ id ++ be_enc 4 n ++ enc_request r ++ rest ->
  exists s1, srun C E (conn_body C) s = (Some true, s1) /\ (exists t, responded s s1 (RsError 1 t)) /\
    no_calls s s1 /\ same_sessions C s s1 /\
    forall f, serve C E (S (S f)) s =
      match srun C E (conn_body C) (set_in s1 (enc_request r)) with
      | (Some true, s2) => serve C E f (set_in s2 rest)
      | (Some false, s2) => (Closed, set_in s2 rest)
      | (None, s2) => (Panicked, set_in s2 rest)
      end.
Proof.
  intros Hid H1 H2 Hn Hr Hq W Hin.
  pose proof (oversized_setup C E s id n (enc_request r ++ rest) Hid H1 H2 (Hq _) Hin) as P.
  destruct (srun C E (conn_body C) s) as [o s1] eqn:R. destruct P as (P1 & P2 & P3 & P4 & P5 & P6).
  exists s1. rewrite (P6 W). split; [reflexivity|]. split; [exact P5|]. split; [exact P2|].
  split; [intros h i; unfold known; rewrite P3, P4; reflexivity|]. intros f.
  cbn [serve]. rewrite R, (P6 W).
  pose proof (conn_body_ok C E s1 r rest Hr P1 (Hq _)) as K1.
  pose proof (conn_body_ok C E (set_in s1 (enc_request r)) r [] Hr (eq_sym (app_nil_r _)) (Hq _)) as K2.
  rewrite K1, K2. change (set_in (tick (set_in s1 (enc_request r))) []) with (set_in (tick s1) []).
  rewrite !(srun_in C E (after C r) (noreads_after C r)).
  destruct (srun C E (after C r) (tick s1)) as [[[|]|] s2]; reflexivity.
Qed.

Definition ex_used (input : bytes) : sst :=
  set_in (snd (srun toy ex_E (conn_body toy) (ex_s (enc_request (ex_process 5 [x41] true))))) input.
Lemma wf_set_in s i : wf s -> wf (set_in s i).
Proof. intros H. apply (wf_same s); [exact H|destruct s; reflexivity..]. Qed.
Lemma ex_s_wf i : wf (ex_s i).
Proof. apply wf_set_in, WF_conn, wf_init. Qed.
Lemma ex_used_wf i : wf (ex_used i).
Proof. apply wf_set_in, WF_conn, ex_s_wf. Qed.
(** With a signer that fails, a Setup is refused and replaces the session. *)
Lemma setup_refused_replaces C (L : CryptoLaws C) E s id pub rest host :
  wf s -> request_ok (RqSetup id pub) -> e_quit E (s_step s) = false ->
  s_in s = enc_request (RqSetup id pub) ++ rest -> e_host E = Some host ->
  (forall i, exists sk, e_gen E i = Some sk /\ x_dh C sk pub <> None) -> (forall i, e_store E i = true) ->
  (forall i h m, e_sign E i h m = KErr) ->
  let '(res, s') := srun C E (conn_body C) s in
  (exists t, responded s s' (RsError 2 t)) /\ exists shared, known C s' host id = Some {| ses_secret := shared; ses_win := new_window |}.
Proof.
  intros Hwf Hok Hq Hin Hh Hg Hs Hsg. pose proof (setup_spec C E s id pub rest L Hok Hin Hq Hwf) as SP.
  destruct (srun C E (conn_body C) s) as [res s'].
  destruct SP as (_ & _ & [(h & i & sk & shared & j & sig & Eh & Eg & Ed & Es & _)|
      [(_ & (c & t & _ & Hreason) & _)|(h & i & sk & shared & j & Eh & Eg & Ed & [Kn _] & Hsx)]]).
  - rewrite Hsg in Es. discriminate.
  - exfalso. destruct Hreason as [[-> [[i Hg']|(i & sk & Hg' & Hd)]]|[-> [Hh'|[i Hs']]]].
    + destruct (Hg i) as (k & Hk & _). congruence.
    + destruct (Hg i) as (k & Hk & Hd'). congruence.
    + congruence.
    + rewrite Hs in Hs'. discriminate.
  - cbv zeta in Hsx. rewrite Hh in Eh. injection Eh as <-. destruct Hsx as [(_ & Hr & _)|(X & _)].
    + split; [exact Hr|]. exists shared. exact Kn.
    + rewrite Hsg in X. discriminate.
Qed.
Lemma setup_refused_changes C (L : CryptoLaws C) E s id pub rest host :
  wf s -> request_ok (RqSetup id pub) -> e_quit E (s_step s) = false ->
  s_in s = enc_request (RqSetup id pub) ++ rest -> e_host E = Some host ->
  (forall i, exists sk, e_gen E i = Some sk /\ x_dh C sk pub <> None) -> (forall i, e_store E i = true) ->
  (forall i h m, e_sign E i h m = KErr) ->
  (forall ses, known C s host id = Some ses -> ses_win ses <> new_window) ->
  let '(res, s') := srun C E (conn_body C) s in
  (exists t, responded s s' (RsError 2 t)) /\ ~ same_sessions C s s' /\
  exists shared, known C s' host id = Some {| ses_secret := shared; ses_win := new_window |}.
Proof.
  intros Hwf Hok Hq Hin Hh Hg Hs Hsg Hw. pose proof (setup_refused_replaces C L E s id pub rest host Hwf Hok Hq Hin Hh Hg Hs Hsg) as P.
  destruct (srun C E (conn_body C) s) as [res s']. destruct P as [P1 (shared & P2)]. split; [exact P1|]. split; [|eauto].
  intros S. specialize (S host id). rewrite P2 in S. symmetry in S. apply Hw in S. apply S. reflexivity.
Qed.
Lemma setup_refused_example : let s := ex_used (enc_request ex_setup) in
  wf s /\ request_ok ex_setup /\ (exists ses, known toy s ex_host ex_id = Some ses /\ ses_win ses <> new_window) /\
  (forall i, exists sk, e_gen (ex_env (HOk []) KErr) i = Some sk /\ x_dh toy sk (x_pub toy ex_csk) <> None) /\
  forall i h m, e_sign (ex_env (HOk []) KErr) i h m = KErr.
Proof.
  split; [apply ex_used_wf|]. split; [split; reflexivity|].
  split; [eexists; split; [vm_compute; reflexivity|vm_compute; discriminate]|].
  split; [intros i; exists ex_ssk; split; [reflexivity|vm_compute; discriminate]|reflexivity].
Qed.
(** With a signer that does not fail, a refused Setup changes nothing. *)
Lemma setup_refused_partial C (L : CryptoLaws C) E s id pub rest :
  wf s -> request_ok (RqSetup id pub) -> e_quit E (s_step s) = false ->
  s_in s = enc_request (RqSetup id pub) ++ rest ->
  (forall i h m, exists sig, e_sign E i h m = KOk sig) ->
  let '(res, s') := srun C E (conn_body C) s in
  (exists c t, responded s s' (RsError c t)) -> same_sessions C s s'.
Proof.
  intros Hwf Hok Hq Hin Hs. pose proof (setup_spec C E s id pub rest L Hok Hin Hq Hwf) as P.
  destruct (srun C E (conn_body C) s) as [res s'].
  destruct P as (_ & _ & [(host & i & sk & shared & j & sig & _ & _ & _ & _ & _ & A & _)|[(A & _)|(host & i & sk & shared & j & _ & _ & _ & _ & P)]]).
  - intros (c & t & n & Er). destruct A as [[n' A]|(m & n' & A)]; rewrite A in Er; apply app_inv_head in Er.
    + discriminate Er.
    + discriminate Er.
  - intros _. exact A.
  - cbv zeta in P. destruct P as [[P _]|[P _]]; match type of P with e_sign E ?a ?b ?c = _ => destruct (Hs a b c) as [sig Q] end; congruence.
Qed.

(** Nothing failing, a Setup succeeds. *)
Lemma setup_succeeds C (L : CryptoLaws C) E s id pub rest host :
  wf s -> request_ok (RqSetup id pub) -> e_quit E (s_step s) = false ->
  s_in s = enc_request (RqSetup id pub) ++ rest ->
  e_host E = Some host -> (forall i, exists sk, e_gen E i = Some sk /\ x_dh C sk pub <> None) ->
  (forall i, e_store E i = true) -> (forall i h m, exists sig, e_sign E i h m = KOk sig) -> writes_all E ->
  let '(res, s') := srun C E (conn_body C) s in
  res = Some true /\ exists i sk sig, e_gen E i = Some sk /\ responded s s' (RsSetup (x_pub C sk) 4 sig).
Proof.
  intros Hwf Hok Hq Hin Hh Hg Hst Hs W. pose proof (setup_spec C E s id pub rest L Hok Hin Hq Hwf) as P.
  destruct (srun C E (conn_body C) s) as [res s'].
  destruct P as (_ & _ & [(h & i & sk & shared & j & sig & _ & Eg & _ & _ & _ & _ & A)|[(_ & (c & t & _ & R) & _)|(h & i & sk & shared & j & _ & _ & _ & _ & P)]]).
  - destruct (A W) as [A1 A2]. split; [exact A2|]. eauto.
  - exfalso. destruct R as [[_ [[i R]|(i & sk & R1 & R2)]]|[_ [R|[i R]]]].
    + destruct (Hg i) as (sk & G & _). congruence.
    + destruct (Hg i) as (sk' & G & G2). congruence.
    + congruence.
    + rewrite Hst in R. discriminate.
  - exfalso. cbv zeta in P. destruct P as [[P _]|[P _]];
      match type of P with e_sign E ?a ?b ?c = _ => destruct (Hs a b c) as [sig Q] end; congruence.
Qed.
Lemma known_history C s host id ses : wf s -> known C s host id = Some ses ->
  exists hist, Forall (fun c => c < two64) hist /\ snd (checks new_window hist) = ses_win ses.
Proof.
  intros W. unfold known. destruct (s_map s (session_key C host id)) as [p|]; [|discriminate].
  intros [= <-]. apply (wf_win s W).
Qed.
Lemma version_unanswered C E s b i :
  e_quit E (s_step s) = false -> s_in s = b :: i -> b2n b / 16 <> 1 ->
  ~ exists t, responded s (snd (srun C E (conn_body C) s)) (RsError 4 t).
Proof.
  intros Hq Hi Hb (t & n & H). destruct (other_version C E s b i Hq Hi Hb) as (s' & R & U & _).
  rewrite R in H. cbn [snd] in H. rewrite U in H. apply (f_equal (@length _)) in H. rewrite app_length in H. cbn in H. lia.
Qed.
Lemma handler_error_panic C E s host id msg rest ctr reply :
  request_ok (RqProcess id ctr msg reply) ->
  s_in s = enc_request (RqProcess id ctr msg reply) ++ rest ->
  e_quit E (s_step s) = false -> e_host E = Some host ->
  forall ses hist, known C s host id = Some ses ->
  Forall (fun c => c < two64) hist -> snd (checks new_window hist) = ses_win ses ->
  wf s -> ~ refused_after hist ctr ->
  forall key, new_gcm C (ses_secret ses) = Some key ->
  forall pt, gcm_open C key (gcm_nonce dir_c2s ctr) msg = Some pt ->
  let '(res, s') := srun C E (conn_body C) s in
  ((forall i, e_handler E i reply pt = HErr) -> exists t, responded s s' (RsError 2 t)) /\
  ((forall i, e_handler E i reply pt = HPanic) -> silent s s' /\ res = None).
Proof.
  intros Hok Hin Hq Hh ses hist Hk Hhist Hwin Hwf Hf key Hkey pt Hopen.
  pose proof (process_accepted C E s host id msg rest ctr reply Hok Hin Hq Hh ses hist Hk Hhist Hwin Hwf Hf key Hkey pt Hopen) as P.
  destruct (srun C E (conn_body C) s) as [r s']. destruct P as (_ & _ & _ & i & P).
  split; intros H; rewrite (H i) in P; [apply P|exact P].
Qed.
