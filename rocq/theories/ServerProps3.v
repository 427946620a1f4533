From Verif Require Import Bytes BytesProofs Parser ParserProofs Crypto Kdf Wire WireProofs WireSeq WireExtra
  Replay SpecReplay ReplayProofs Base64 Base64Proofs Server ServerSeq SpecServer ServerProofs ServerProps ServerProps2.

(** ** Framing *)
(** [framed l closed]: what reached the wire is whole responses followed by a
    proper prefix of one, which is empty unless the connection is being closed. *)
Definition framed (l : list (bytes * N)) (closing : bool) : Prop :=
  exists rs cut, wire l = concat (map enc_response rs) ++ cut /\
    (cut = [] \/ (closing = true /\ exists r more, enc_response r = cut ++ more /\ more <> [])).

Lemma wire_app a b : wire (a ++ b) = wire a ++ wire b.
Proof. unfold wire. rewrite map_app, concat_app. reflexivity. Qed.
Lemma takeN_0 {A} (l : list A) : takeN 0 l = [].
Proof. destruct l; reflexivity. Qed.
Lemma takeN_all {A} (l : list A) : takeN (lenN l) l = l.
Proof. pose proof (takeN_app l [] (lenN l) eq_refl) as H. rewrite app_nil_r in H. exact H. Qed.
Lemma framed_one r n closing : n <= lenN (enc_response r) -> (closing = false -> n = lenN (enc_response r)) ->
  framed [(enc_response r, n)] closing.
Proof.
  intros Hn Hc. unfold framed, wire. cbn [map concat fst snd]. rewrite app_nil_r.
  destruct (N.eq_dec n (lenN (enc_response r))) as [->|Hne].
  - exists [r], []. cbn. rewrite !app_nil_r, takeN_all. auto.
  - exists [], (takeN n (enc_response r)). split; [reflexivity|]. right.
    split; [destruct closing; [reflexivity|exfalso; auto]|].
    exists r, (dropN n (enc_response r)). split; [symmetry; apply takeN_dropN|].
    intros H. apply (f_equal lenN) in H. rewrite dropN_len in H. cbn in H. lia.
Qed.

Definition FR (C : Crypto) (E : senv) (p : sprog bool) : Prop :=
  forall s, exists l, s_sent (snd (srun C E p s)) = s_sent s ++ l /\
    framed l (match fst (srun C E p s) with Some false => true | _ => false end).

Lemma FR_ret C E b : FR C E (SRet b).
Proof. intros s. exists []. cbn. rewrite app_nil_r. split; [reflexivity|]. exists [], []. auto. Qed.
Lemma FR_panic C E : FR C E SPanic.
Proof. intros s. exists []. cbn. rewrite app_nil_r. split; [reflexivity|]. exists [], []. auto. Qed.
Definition is_write {R} (e : seff R) : bool := match e with SWrite _ => true | _ => false end.
Lemma sexec_sent {R} C E (e : seff R) s : is_write e = false -> s_sent (snd (sexec C E e s)) = s_sent s.
Proof.
  destruct e; intros H; try discriminate H; cbn [sexec]; try reflexivity.
  - destruct (fl_read n (s_in s) (e_end E)); reflexivity.
  - destruct (fl_copy n (s_in s) (e_end E)); reflexivity.
  - destruct (e_store E (s_step s)); reflexivity.
  - destruct (check_and_update _ c); reflexivity.
Qed.
Lemma FR_do {R} C E (e : seff R) k : is_write e = false -> (forall r, FR C E (k r)) -> FR C E (SDo e k).
Proof.
  intros H Hk s. cbn [srun]. pose proof (sexec_sent C E e s H) as Hs.
  destruct (sexec C E e s) as [r s']. cbn [snd] in Hs. destruct (Hk r s') as (l & Hl & Hf).
  exists l. rewrite <- Hs. auto.
Qed.
Lemma FR_lift {A} C E (p : parser A) f : (forall r, FR C E (f r)) -> FR C E (sbind (slift p) f).
Proof.
  intros H s. rewrite srun_bind, srun_lift. exact (H _ (set_in s _)).
Qed.
Lemma FR_error C E c t : FR C E (reply_error c t).
Proof.
  intros s. destruct (reply_error_run C E c t s) as (n & ok & R & H1 & H2 & _). rewrite R. cbn [fst snd].
  exists [(enc_response (RsError c t), n)]. split; [reflexivity|]. apply framed_one; [exact H1|].
  destruct ok; [intros _; auto|discriminate].
Qed.
Lemma FR_response C E r : FR C E (write_response (enc_response r)).
Proof.
  intros s. destruct (write_response_run C E r s) as (n & ok & H1 & H2 & [[R _]|(_ & n2 & ok2 & H3 & H4 & R)]); rewrite R; cbn [fst snd].
  - exists [(enc_response r, n)]. split; [reflexivity|]. apply framed_one; [exact H1|].
    destruct ok; [intros _; auto|discriminate].
  - exists [(enc_response r, 0); (enc_response (RsError 2 msg_send), n2)].
    split; [cbn; rewrite <- app_assoc; reflexivity|].
    destruct (framed_one (RsError 2 msg_send) n2 (match ok2 with true => false | false => true end)) as (rs & cut & W & F);
      [exact H3|destruct ok2; [auto|discriminate]|].
    exists rs, cut. split; [|exact F]. rewrite <- W. unfold wire. cbn [map concat fst snd]. rewrite takeN_0. reflexivity.
Qed.
Ltac frs := repeat match goal with
  | |- FR _ _ (SRet _) => apply FR_ret
  | |- FR _ _ SPanic => apply FR_panic
  | |- FR _ _ (sbind (sdo ?e) _) => cbn [sbind sdo]
  | |- FR _ _ (SDo ?e _) => apply FR_do; [reflexivity|intros]
  | |- FR _ _ (reply_error _ _) => apply FR_error
  | |- FR _ _ (write_response (enc_setup_resp (new_setup_response ?a ?b ?c))) => apply (FR_response _ _ (RsSetup a b c))
  | |- FR _ _ (write_response (enc_process_resp (new_process_response ?a ?b))) => apply (FR_response _ _ (RsProcess a b))
  | |- FR _ _ (write_response (enc_fetch_resp (new_fetch_response ?a ?b))) => apply (FR_response _ _ (RsFetchKey a b))
  | |- FR _ _ (write_response (enc_resp_common hello_response)) => apply (FR_response _ _ RsHello)
  | |- FR _ _ (match ?x with _ => _ end) => destruct x
  | |- FR _ _ (let '_ := _ in _) => cbv zeta
  end.
Lemma FR_conn C E : FR C E (conn_body C).
Proof.
  unfold conn_body, one_request. frs. apply FR_lift. intros [er|rc]; frs. unfold handle. frs.
  - unfold setup_handler. apply FR_lift. intros [er|m]; frs. unfold setup_after. frs.
  - unfold process_handler. apply FR_lift. intros [er|m]; frs. unfold process_after. frs.
  - unfold fetch_key_handler. frs.
Qed.

Lemma framed_app l1 l2 closing : framed l1 false -> framed l2 closing -> framed (l1 ++ l2) closing.
Proof.
  intros (r1 & c1 & W1 & H1) (r2 & c2 & W2 & H2). destruct H1 as [->|[? _]]; [|discriminate].
  exists (r1 ++ r2), c2. rewrite wire_app, W1, W2, app_nil_r, map_app, concat_app, app_assoc. auto.
Qed.
Lemma serve_framed C E fuel : forall s,
  let '(f, s') := serve C E fuel s in
  exists l, s_sent s' = s_sent s ++ l /\ framed l (match f with Closed => true | _ => false end).
Proof.
  induction fuel as [|n IH]; intros s; cbn [serve].
  - exists []. rewrite app_nil_r. split; [reflexivity|]. exists [], []. auto.
  - destruct (FR_conn C E s) as (l & Hl & Hf).
    destruct (srun C E (conn_body C) s) as [[[|]|] s1]; cbn [fst snd] in Hl, Hf.
    + specialize (IH s1). destruct (serve C E n s1) as [f s']. destruct IH as (l2 & Hl2 & Hf2).
      exists (l ++ l2). rewrite Hl2, Hl, <- app_assoc. split; [reflexivity|]. apply framed_app; assumption.
    + exists l. auto.
    + exists l. auto.
Qed.

(** ** The loop ends *)
Lemma sexec_in_len {R} C E (e : seff R) s : (length (s_in (snd (sexec C E e s))) <= length (s_in s))%nat.
Proof.
  destruct (is_read e) eqn:H; [|rewrite sexec_keeps_in by exact H; lia].
  destruct e; try discriminate H; cbn [sexec].
  - destruct (fl_read n (s_in s) (e_end E)) as [r i] eqn:F. apply fl_read_suffix in F as [c ->]. cbn.
    rewrite app_length. lia.
  - destruct (fl_copy n (s_in s) (e_end E)) as [r i] eqn:F. apply fl_copy_suffix in F as [c ->]. cbn.
    rewrite app_length. lia.
Qed.
Lemma srun_in_len {A} C E (p : sprog A) : forall s, (length (s_in (snd (srun C E p s))) <= length (s_in s))%nat.
Proof.
  induction p as [a| |R e k IH]; intros s; cbn [srun snd]; [lia..|].
  pose proof (sexec_in_len C E e s). destruct (sexec C E e s) as [r s']. cbn [snd] in *.
  specialize (IH r s'). lia.
Qed.
Lemma conn_body_quit C E s : e_quit E (s_step s) = true -> srun C E (conn_body C) s = (Some false, tick s).
Proof. intros H. unfold conn_body. rewrite srun_bind. cbn [sdo srun sexec]. rewrite H. reflexivity. Qed.
Lemma conn_body_hdr C E s b i : e_quit E (s_step s) = false -> s_in s = b :: i ->
  exists rc, req_common_ok rc /\ b2n b = rq_version rc * 16 + rq_action rc /\
  srun C E (conn_body C) s =
  srun C E (if rq_version rc =? version1 then handle C rc else SRet false) (set_in (tick s) i).
Proof.
  intros Hq Hin. destruct (req_common_octet b i (e_end E)) as (rc & R & _ & Hrc & Hb).
  exists rc. split; [exact Hrc|]. split; [exact Hb|].
  unfold conn_body. rewrite srun_bind. cbn [sdo srun sexec]. rewrite Hq. cbv iota.
  unfold one_request. rewrite srun_bind, srun_lift. change (s_in (tick s)) with (s_in s). rewrite Hin, R. reflexivity.
Qed.
Lemma conn_body_eof C E s : e_quit E (s_step s) = false -> s_in s = [] ->
  exists t, srun C E (conn_body C) s = (Some false, t) /\ t = tick s.
Proof.
  intros Hq Hin. unfold conn_body. rewrite srun_bind. cbn [sdo srun sexec]. rewrite Hq. cbv iota.
  unfold one_request. rewrite srun_bind, srun_lift. change (s_in (tick s)) with (s_in s). rewrite Hin.
  assert (exists er, run parse_req_common [] (e_end E) = (inl er, [])) as (er & ->).
  { unfold parse_req_common. rewrite run_bind. destruct (run_pcopy1_nil (e_end E)) as (er & ->). eauto. }
  cbn. exists (tick s). split; [|reflexivity]. f_equal. rewrite <- Hin. destruct s; reflexivity.
Qed.
Lemma conn_body_progress C E s s' : srun C E (conn_body C) s = (Some true, s') ->
  (length (s_in s') < length (s_in s))%nat.
Proof.
  destruct (e_quit E (s_step s)) eqn:Hq; [rewrite conn_body_quit by exact Hq; discriminate|].
  destruct (s_in s) as [|b i] eqn:Hin.
  - destruct (conn_body_eof C E s Hq Hin) as (t & -> & _). discriminate.
  - destruct (conn_body_hdr C E s b i Hq Hin) as (rc & _ & _ & ->). intros H.
    match type of H with srun C E ?p ?s0 = _ => pose proof (srun_in_len C E p s0) as K end.
    rewrite H in K. cbn in K |- *. lia.
Qed.
Lemma serve_ends C E fuel : forall s, (length (s_in s) < fuel)%nat -> fst (serve C E fuel s) <> OutOfFuel.
Proof.
  induction fuel as [|n IH]; intros s H; [lia|]. cbn [serve].
  destruct (srun C E (conn_body C) s) as [[[|]|] s1] eqn:R; cbn; try discriminate.
  apply conn_body_progress in R. apply IH. lia.
Qed.

(** ** Pipelining *)
(** Requests handled one at a time, each being all the input there is. *)
Fixpoint one_by_one (C : Crypto) (E : senv) (rs : list request) (s : sst) : option bool * sst :=
  match rs with
  | [] => (Some true, s)
  | r :: rs' => match srun C E (conn_body C) (set_in s (enc_request r)) with
                | (Some true, s') => one_by_one C E rs' s'
                | x => x
                end
  end.
(** Equal but for unread input. *)
Definition same_but_input (s s' : sst) : Prop := set_in s [] = set_in s' [].

Lemma alone_vs_stream C E s r rest : request_ok r ->
  exists o t, srun C E (conn_body C) (set_in s (enc_request r)) = (o, t) /\
    ((e_quit E (s_step s) = false /\ s_in t = [] /\
      srun C E (conn_body C) (set_in s (enc_request r ++ rest)) = (o, set_in t rest)) \/
     (o = Some false /\ exists t', srun C E (conn_body C) (set_in s (enc_request r ++ rest)) = (o, t') /\ same_but_input t t')).
Proof.
  intros Hr. destruct (e_quit E (s_step s)) eqn:Hq.
  - exists (Some false), (tick (set_in s (enc_request r))). split; [apply conn_body_quit; exact Hq|]. right.
    split; [reflexivity|]. eexists. split; [apply conn_body_quit; exact Hq|]. reflexivity.
  - assert (K : forall i, srun C E (conn_body C) (set_in s (enc_request r ++ i)) =
                (fst (srun C E (after C r) (tick s)), set_in (snd (srun C E (after C r) (tick s))) i)).
    { intros i. rewrite (conn_body_ok C E (set_in s (enc_request r ++ i)) r i Hr eq_refl Hq).
      change (set_in (tick (set_in s (enc_request r ++ i))) i) with (set_in (tick s) i).
      apply srun_in, noreads_after. }
    pose proof (K []) as K0. rewrite app_nil_r in K0. rewrite K0. eexists _, _. split; [reflexivity|].
    left. split; [reflexivity|]. split; [reflexivity|]. rewrite K. reflexivity.
Qed.

Lemma pipelining C E rs : Forall request_ok rs -> forall f s rest,
  let x := serve C E (length rs + f) (set_in s (concat (map enc_request rs) ++ rest)) in
  match one_by_one C E rs s with
  | (Some true, s') => x = serve C E f (set_in s' rest) /\ (rs <> [] -> s_in s' = [])
  | (Some false, s') => fst x = Closed /\ same_but_input s' (snd x)
  | (None, s') => fst x = Panicked /\ same_but_input s' (snd x)
  end.
Proof.
  induction 1 as [|r rs Hr _ IH]; intros f s rest; cbv zeta.
  - cbn [one_by_one length Nat.add map concat app]. split; [reflexivity|congruence].
  - cbn [one_by_one length Nat.add map concat serve]. rewrite <- app_assoc.
    destruct (alone_vs_stream C E s r (concat (map enc_request rs) ++ rest) Hr) as (o & t & R & [(Hq & Ht & R2)|(-> & t' & R2 & Hs)]).
    + rewrite R, R2. destruct o as [[|]|].
      * specialize (IH f t rest). cbv zeta in IH. destruct (one_by_one C E rs t) as [[[|]|] s'] eqn:Eo.
        -- destruct IH as [IH1 IH2]. split; [exact IH1|]. intros _. destruct rs as [|r' rs].
           ++ cbn in Eo. injection Eo as <-. exact Ht.
           ++ apply IH2. discriminate.
        -- exact IH.
        -- exact IH.
      * split; reflexivity.
      * split; reflexivity.
    + rewrite R, R2. split; [reflexivity|exact Hs].
Qed.

(** ** Headers that are not handled *)
Definition untouched (s s' : sst) : Prop :=
  s_sent s' = s_sent s /\ s_calls s' = s_calls s /\ s_map s' = s_map s /\ s_heap s' = s_heap s.
Lemma other_version C E s b i : e_quit E (s_step s) = false -> s_in s = b :: i -> b2n b / 16 <> 1 ->
  exists s', srun C E (conn_body C) s = (Some false, s') /\ untouched s s'.
Proof.
  intros Hq Hin Hb. destruct (conn_body_hdr C E s b i Hq Hin) as (rc & [Hv Ha] & Hrb & ->).
  destruct (N.eqb_spec (rq_version rc) version1) as [Ev|Ev].
  - exfalso. apply Hb. rewrite Hrb, Ev. unfold version1.
    replace (1 * 16 + rq_action rc) with (rq_action rc + 1 * 16) by lia. rewrite N.div_add by lia.
    rewrite N.div_small by exact Ha. reflexivity.
  - eexists. split; [reflexivity|]. repeat split.
Qed.
Lemma other_action C E s b i : e_quit E (s_step s) = false -> s_in s = b :: i ->
  b2n b / 16 = 1 -> ~ (1 <= b2n b mod 16 <= 4) ->
  exists s', srun C E (conn_body C) s = (Some true, s') /\ untouched s s' /\ s_in s' = i.
Proof.
  intros Hq Hin Hb Ha. destruct (conn_body_hdr C E s b i Hq Hin) as (rc & [Hv Hac] & Hrb & ->).
  assert (Ev : rq_version rc = b2n b / 16).
  { rewrite Hrb. replace (rq_version rc * 16 + rq_action rc) with (rq_action rc + rq_version rc * 16) by lia.
    rewrite N.div_add by lia. rewrite N.div_small by exact Hac. lia. }
  assert (Ea : rq_action rc = b2n b mod 16).
  { rewrite Hrb. replace (rq_version rc * 16 + rq_action rc) with (rq_action rc + rq_version rc * 16) by lia.
    rewrite N.mod_add by lia. symmetry. apply N.mod_small, Hac. }
  rewrite Ev, Hb. change (1 =? version1) with true. cbv iota. unfold handle.
  unfold action_hello, action_setup, action_process, action_fetch_key.
  rewrite Ea. set (a := b2n b mod 16) in *.
  destruct (N.eqb_spec a 1); [lia|]. destruct (N.eqb_spec a 2); [lia|].
  destruct (N.eqb_spec a 3); [lia|]. destruct (N.eqb_spec a 4); [lia|].
  eexists. split; [reflexivity|]. repeat split.
Qed.

(** ** Malformed Setup *)
Lemma oversized_setup C E s id n rest : length id = 16%nat -> 2 ^ 16 < n -> n < 2 ^ 32 ->
  e_quit E (s_step s) = false -> s_in s = [x12] ++ id ++ be_enc 4 n ++ rest ->
  let '(res, s') := srun C E (conn_body C) s in
  s_in s' = rest /\ no_calls s s' /\ s_map s' = s_map s /\ s_heap s' = s_heap s /\
  (exists t, responded s s' (RsError 1 t)) /\ (writes_all E -> res = Some true).
Proof.
  intros Hid H1 H2 Hq Hin. unfold conn_body. rewrite srun_bind. cbn [sdo srun sexec]. rewrite Hq. cbv iota.
  unfold one_request. rewrite srun_bind, srun_lift. change (s_in (tick s)) with (s_in s). rewrite Hin.
  change [x12] with (enc_req_common {| rq_version := 1; rq_action := 2 |}).
  rewrite req_common_rt by (split; reflexivity). cbn [fst snd].
  change (if rq_version {| rq_version := 1; rq_action := 2 |} =? version1
     then handle C {| rq_version := 1; rq_action := 2 |} else SRet false)
    with (setup_handler C {| rq_version := 1; rq_action := 2 |}).
  unfold setup_handler. rewrite srun_bind, srun_lift. cbn [set_in s_in].
  unfold parse_setup_req. rewrite run_bind, run_pread by (unfold lenN; rewrite Hid; reflexivity).
  rewrite run_bind, run_pread by (unfold lenN; rewrite be_enc_length; reflexivity).
  rewrite be_dec_enc_small by exact H2.
  destruct (N.ltb_spec max_key_size n) as [_|B]; [|unfold max_key_size in B; lia]. cbn [run fst snd].
  match goal with |- context [reply_error ?c ?t] => change (reply_error c t) with (reply_error 1 msg_parse) end.
  match goal with |- context [srun C E (reply_error 1 msg_parse) ?s0] =>
    destruct (reply_error_run C E 1 msg_parse s0) as (k & ok & R & _ & _ & RW) end.
  rewrite R. split; [reflexivity|]. split; [reflexivity|]. split; [reflexivity|]. split; [reflexivity|].
  split; [exists msg_parse; apply responded_add; reflexivity|]. intros W; rewrite (RW W); reflexivity.
Qed.
(** A Setup whose announced key is within the limit but is not an X25519 key is
    consumed entirely. *)
Lemma bad_key_setup C E s id key rest : length id = 16%nat -> lenN key <= 2 ^ 16 ->
  (forall k, pkix_parse C key <> Some (PkX25519 k)) ->
  e_quit E (s_step s) = false -> s_in s = [x12] ++ id ++ be_enc 4 (lenN key) ++ key ++ rest ->
  let '(res, s') := srun C E (conn_body C) s in
  s_in s' = rest /\ no_calls s s' /\ s_map s' = s_map s /\ s_heap s' = s_heap s /\
  (exists t, responded s s' (RsError 1 t)) /\ (writes_all E -> res = Some true).
Proof.
  intros Hid H1 Hk Hq Hin. unfold conn_body. rewrite srun_bind. cbn [sdo srun sexec]. rewrite Hq. cbv iota.
  unfold one_request. rewrite srun_bind, srun_lift. change (s_in (tick s)) with (s_in s). rewrite Hin.
  change [x12] with (enc_req_common {| rq_version := 1; rq_action := 2 |}).
  rewrite req_common_rt by (split; reflexivity). cbn [fst snd].
  change (if rq_version {| rq_version := 1; rq_action := 2 |} =? version1
     then handle C {| rq_version := 1; rq_action := 2 |} else SRet false)
    with (setup_handler C {| rq_version := 1; rq_action := 2 |}).
  unfold setup_handler. rewrite srun_bind, srun_lift. cbn [set_in s_in].
  unfold parse_setup_req. rewrite run_bind, run_pread by (unfold lenN; rewrite Hid; reflexivity).
  rewrite run_bind, run_pread by (unfold lenN; rewrite be_enc_length; reflexivity).
  rewrite be_dec_enc_small by (eapply N.le_lt_trans; [exact H1|reflexivity]).
  destruct (N.ltb_spec max_key_size (lenN key)) as [B|_]; [unfold max_key_size in B; lia|].
  rewrite run_bind, run_palloc. cbv iota. rewrite run_bind, run_pread by reflexivity. rewrite run_bind.
  unfold parse_ecdh.
  replace (run _ rest (e_end E)) with (@inl perr bytes EKey, rest).
  2:{ destruct (pkix_parse C key) as [[k| | | | | | |]|] eqn:Ep; try reflexivity. exfalso; exact (Hk _ eq_refl). }
  cbn [fst snd].
  match goal with |- context [reply_error ?c ?t] => change (reply_error c t) with (reply_error 1 msg_parse) end.
  match goal with |- context [srun C E (reply_error 1 msg_parse) ?s0] =>
    destruct (reply_error_run C E 1 msg_parse s0) as (k & ok & R & _ & _ & RW) end.
  rewrite R. split; [reflexivity|]. split; [reflexivity|]. split; [reflexivity|]. split; [reflexivity|].
  split; [exists msg_parse; apply responded_add; reflexivity|]. intros W; rewrite (RW W); reflexivity.
Qed.
