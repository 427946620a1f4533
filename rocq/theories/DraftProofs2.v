From Coq Require Import Sorting.Sorted.
From Verif Require Import Bytes BytesProofs Parser ParserProofs Crypto Kdf Wire WireProofs WireSeq WireExtra Keys KeysProofs
  Replay SpecReplay ReplayProofs Server ServerSeq SpecServer ServerProofs ServerProps ServerProps2 ServerProps3
  Client ClientSeq SpecClient ClientProofs ClientProps SpecE2E E2EProofs ClientConc SpecClientConc SpecUsage.

(** ** Only responses are sent *)
Inductive wok {A} : sprog A -> Prop :=
| WokRet a : wok (SRet a)
| WokPanic : wok SPanic
| WokDo R (e : seff R) k : (forall b, match e with SWrite b' => b' = b -> exists r, b = enc_response r | _ => True end) ->
    (forall r, wok (k r)) -> wok (SDo e k).
Lemma wok_bind {A B} (p : sprog A) (f : A -> sprog B) : wok p -> (forall a, wok (f a)) -> wok (sbind p f).
Proof. intros H Hf. induction H; cbn [sbind]; [apply Hf|constructor|constructor; auto]. Qed.
Lemma wok_lift {A} (p : parser A) : wok (slift p).
Proof. induction p; cbn [slift]; repeat constructor; auto. Qed.
Lemma wok_error c t : wok (reply_error c t).
Proof.
  unfold reply_error, write_error_response, sdo. cbn [sbind]. constructor.
  - intros b <-. exists (RsError c t). reflexivity.
  - intros [n [e|]]; constructor.
Qed.
Lemma wok_response r : wok (write_response (enc_response r)).
Proof.
  unfold write_response, sdo. cbn [sbind]. constructor.
  - intros b <-. eauto.
  - intros [n [[|]|]]; [constructor| |constructor]. destruct (0 <? n); [constructor|apply (wok_error code_server_error)].
Qed.
Ltac wok_tac := repeat match goal with
  | |- wok (SRet _) => constructor
  | |- wok SPanic => constructor
  | |- wok (reply_error _ _) => apply wok_error
  | |- wok (slift _) => apply wok_lift
  | |- wok (sdo (SWrite _)) => fail 1
  | |- wok (sdo _) => constructor; [intros ?; exact I|intros ?; constructor]
  | |- wok (sbind _ _) => apply wok_bind; [|intros ?]
  | |- wok (match ?x with _ => _ end) => destruct x
  end.
Lemma wok_conn C : wok (conn_body C).
Proof.
  unfold conn_body, one_request. wok_tac.
  unfold handle. wok_tac.
  - apply (wok_response RsHello).
  - unfold setup_handler. wok_tac. unfold setup_after. wok_tac. cbv zeta. wok_tac.
    match goal with |- wok (write_response (enc_setup_resp (new_setup_response ?a ?b ?c))) => apply (wok_response (RsSetup a b c)) end.
  - unfold process_handler. wok_tac. unfold process_after. wok_tac.
    match goal with |- wok (write_response (enc_process_resp (new_process_response ?a ?b))) => apply (wok_response (RsProcess a b)) end.
  - unfold fetch_key_handler. wok_tac.
    match goal with |- wok (write_response (enc_fetch_resp (new_fetch_response ?a ?b))) => apply (wok_response (RsFetchKey a b)) end.
Qed.
Definition is_resp (x : bytes * N) : Prop := exists r, fst x = enc_response r.
Lemma wok_run {A} C E (p : sprog A) : wok p -> forall s,
  exists l, s_sent (snd (srun C E p s)) = s_sent s ++ l /\ Forall is_resp l.
Proof.
  induction 1 as [a| |R e k He _ IH]; intros s; cbn [srun].
  - exists []. rewrite app_nil_r. auto.
  - exists []. rewrite app_nil_r. auto.
  - assert (X : exists l, s_sent (snd (sexec C E e s)) = s_sent s ++ l /\ Forall is_resp l).
    { destruct (is_write e) eqn:Ew; [|exists []; rewrite app_nil_r; split; [apply sexec_sent, Ew|constructor]].
      destruct e; try discriminate Ew. cbn [sexec]. destruct (e_write E (s_step s) b) as [n er].
      eexists. split; [reflexivity|]. constructor; [|constructor]. destruct (He b eq_refl) as (r & ->). exists r. reflexivity. }
    destruct (sexec C E e s) as [r s1]. cbn [snd] in X. destruct X as (l1 & H1 & F1).
    destruct (IH r s1) as (l2 & H2 & F2). exists (l1 ++ l2). rewrite H2, H1, app_assoc. split; [reflexivity|].
    apply Forall_app. auto.
Qed.
Lemma serve_responses C E : forall fuel s, exists l, s_sent (snd (serve C E fuel s)) = s_sent s ++ l /\ Forall is_resp l.
Proof.
  induction fuel as [|f IH]; intros s; cbn [serve].
  - exists []. rewrite app_nil_r. auto.
  - destruct (wok_run C E _ (wok_conn C) s) as (l1 & H1 & F1).
    destruct (srun C E (conn_body C) s) as [[[|]|] s1]; cbn [snd] in *; eauto.
    destruct (IH s1) as (l2 & H2 & F2). exists (l1 ++ l2). rewrite H2, H1, app_assoc. split; [reflexivity|]. apply Forall_app. auto.
Qed.
Lemma resp_head r : hd_error (enc_response r) = Some x80 \/ hd_error (enc_response r) = Some x00.
Proof. destruct r; cbn; auto. Qed.
Lemma serve_reserved C E fuel s : exists l, s_sent (snd (serve C E fuel s)) = s_sent s ++ l /\
  Forall (fun x => hd_error (fst x) = Some x80 \/ hd_error (fst x) = Some x00) l.
Proof.
  destruct (serve_responses C E fuel s) as (l & H & F). exists l. split; [exact H|].
  eapply Forall_impl; [|exact F]. intros [b m] (r & Hr). cbn [fst] in *. subst b. apply resp_head.
Qed.

(** ** One session, several connections *)
Lemma hops_ok C (L : CryptoLaws C) o ses n chost (f : bytes -> bytes) : co_reply o = true -> length (cs_id ses) = 16%nat ->
  forall l hist ctr ss,
  wf ss -> known C ss chost (cs_id ses) = Some {| ses_secret := cs_secret ses; ses_win := snd (checks new_window hist) |} ->
  Forall (fun c => c <= ctr) hist -> ctr + lenN l < 2 ^ 64 ->
  Forall (fun x => let '(CE, SE, p) := x in c_works CE /\ writes_all SE /\ (forall i, e_quit SE i = false) /\
    e_host SE = Some chost /\ lenN p + 16 <= 2 ^ 30 /\
    forall i, e_handler SE i true p = HOk (f p) /\ f p <> [] /\ lenN (f p) + 16 <= 2 ^ 30 /\ lenN (f p) <= n) l ->
  fst (hops C o ses n l ctr ss) = map (fun x => Some (RdOk (f (snd x)) true)) l /\
  map snd (s_calls (snd (hops C o ses n l ctr ss))) = map snd (s_calls ss) ++ map snd l.
Proof.
  intros Ho Hid. induction l as [|[[CE SE] p] l IH]; intros hist ctr ss Hwf Hk Hh Hc Hl; cbn [hops].
  - cbn [fst snd map]. rewrite app_nil_r. auto.
  - inversion Hl as [|? ? Hx Hl']; subst. cbv beta iota in Hx. destruct Hx as (W1 & W2 & Q & Hst & Hp & HH). rewrite lenN_cons in Hc.
    assert (P : paired C ses chost hist (new_client ctr) ss).
    { constructor; auto. eapply Forall_impl; [|exact Hh]. intros c X. cbv beta in X. lia. }
    pose proof (e2e_round C CE SE o chost L W1 W2 Q Hst Ho ses hist (new_client ctr) ss p n P) as R.
    cbn [new_client c_ctr] in R. specialize (R ltac:(lia) (next_not_refused _ _ Hh) Hp). cbv zeta in R.
    destruct (round C CE SE o ses p n (new_client ctr) ss) as [[[w r] c1] s1].
    destruct R as (_ & (ptr & Rc) & (i & out & Ro & -> & Rb) & Rctr & Ri & Rwf & Rk & _).
    { intros i. destruct (HH i) as (A1 & A2 & A3 & _). eauto. }
    destruct (HH i) as (A1 & A2 & A3 & A4). rewrite A1 in Ro. injection Ro as <-.
    specialize (IH (hist ++ [ctr + 1]) (c_ctr c1) s1 Rwf Rk).
    destruct (hops C o ses n l (c_ctr c1) s1) as [rs s2]. cbn [fst snd] in *.
    destruct IH as [-> I2]; [|lia|exact Hl'|].
    + rewrite Rctr. apply Forall_app. split; [|constructor; [lia|constructor]].
      eapply Forall_impl; [|exact Hh]. intros c X. cbv beta in X. lia.
    + split.
      * cbn [map snd]. f_equal. f_equal. unfold takeN. apply N.leb_le in A4. rewrite A4. reflexivity.
      * rewrite I2, Rc, map_app, <- app_assoc. reflexivity.
Qed.

(** ** Counters of one client *)
Lemma write_any C (L : CryptoLaws C) E o ses p s : c_ctr s < two64 ->
  let '(r, s') := crun C E (client_write C o ses p) s in
  (c_ctr s' = c_ctr s /\ c_sent s' = c_sent s) \/
  (c_ctr s' = (c_ctr s + 1) mod two64 /\
   (c_ctr s' = 0 /\ c_sent s' = c_sent s \/
    exists ct n, c_sent s' = c_sent s ++ [(enc_request (RqProcess (cs_id ses) (c_ctr s') ct (co_reply o)), n)])).
Proof.
  intros _. unfold client_write. destruct (client_gcm_some C L (cs_secret ses)) as (key & K). rewrite K.
  assert (X : exists ok s1, c_ctr s1 = c_ctr s /\ c_sent s1 = c_sent s /\ forall f : bool -> cprog wr_result,
    crun C E (cbind (if co_wto o then cdo CDeadline else CRet true) f) s = crun C E (f ok) s1).
  { destruct (co_wto o); [exists (ce_deadline E (c_step s)), (c_tick s)|exists true, s]; repeat split. }
  destruct X as (ok & s1 & Hc & Hs & X). rewrite X. destruct ok; cbn [negb].
  2:{ cbn [crun]. left. auto. }
  rewrite crun_do. cbn [cexec]. cbv zeta. cbn [fst snd]. rewrite Hc.
  set (c := (c_ctr s + 1) mod two64). destruct (N.eqb_spec c 0) as [E0|E0].
  - cbn [crun]. right. cbn [c_set_ctr c_ctr c_sent]. split; [reflexivity|]. left. auto.
  - rewrite crun_do. cbn [cexec fst snd]. rewrite crun_do. cbn [cexec fst snd]. rewrite crun_do. cbn [cexec].
    set (q := enc_process_req _). destruct (ce_write E _ q) as [n er]. cbv zeta. cbn [fst snd crun].
    right. cbn [c_add_sent c_tick c_add_seal c_set_last c_set_ctr c_ctr c_sent]. split; [reflexivity|].
    right. exists (gcm_seal C key (gcm_nonce dir_c2s c) p), (N.min n (lenN q)). rewrite Hs. reflexivity.
Qed.

Lemma writes_increase C (L : CryptoLaws C) E o ses : forall ps s, c_ctr s + lenN ps < 2 ^ 64 ->
  let '(_, s') := writes C E o ses ps s in
  exists l, c_ctr s <= c_ctr s' <= c_ctr s + lenN ps /\
    map fst (c_sent s') = map fst (c_sent s) ++ map (fun x => enc_request (RqProcess (cs_id ses) (fst x) (snd x) (co_reply o))) l /\
    StronglySorted N.lt (map fst l) /\ Forall (fun c => c_ctr s < c <= c_ctr s') (map fst l).
Proof.
  induction ps as [|p ps IH]; intros s Hc; cbn [writes].
  - exists []. cbn [map]. rewrite app_nil_r. change (lenN []) with 0. split; [lia|]. split; [reflexivity|]. split; constructor.
  - rewrite lenN_cons in *. pose proof (write_any C L E o ses p s ltac:(unfold two64; lia)) as W.
    destruct (crun C E (client_write C o ses p) s) as [r s1].
    assert (Hm : (c_ctr s + 1) mod two64 = c_ctr s + 1) by (apply N.mod_small; unfold two64; lia). rewrite Hm in W.
    assert (Hs1 : c_ctr s <= c_ctr s1 <= c_ctr s + 1) by lia.
    specialize (IH s1 ltac:(lia)). destruct (writes C E o ses ps s1) as [rs s2].
    destruct IH as (l & I1 & I2 & I3 & I4).
    destruct W as [[W1 W2]|[W1 [[W2 _]|(ct & n & W2)]]].
    + exists l. split; [lia|]. split; [rewrite I2, W2; reflexivity|]. split; [exact I3|]. rewrite <- W1. exact I4.
    + lia.
    + exists ((c_ctr s1, ct) :: l). split; [lia|]. split.
      { rewrite I2, W2, map_app, <- app_assoc. reflexivity. }
      cbn [map fst]. split.
      * constructor; [exact I3|]. eapply Forall_impl; [|exact I4]. intros c X. cbv beta in X. lia.
      * constructor; [lia|]. eapply Forall_impl; [|exact I4]. intros c X. cbv beta in X. lia.
Qed.
