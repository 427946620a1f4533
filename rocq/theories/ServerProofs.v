From Verif Require Import Bytes BytesProofs Parser ParserProofs Crypto Kdf Wire WireProofs WireSeq WireExtra
  Replay SpecReplay ReplayProofs Base64 Base64Proofs Server ServerSeq SpecServer.

(** ** Executions *)
Lemma srun_bind {A B} C E (p : sprog A) (f : A -> sprog B) s :
  srun C E (sbind p f) s =
  match srun C E p s with
  | (Some a, s') => srun C E (f a) s'
  | (None, s') => (None, s')
  end.
Proof.
  revert s; induction p as [a| |R e k IH]; intros s; cbn [sbind srun]; [reflexivity..|].
  destruct (sexec C E e s) as [r s']. apply IH.
Qed.

Lemma set_in_id s : set_in s (s_in s) = s.
Proof. destruct s; reflexivity. Qed.

Lemma srun_lift {A} C E (p : parser A) s :
  srun C E (slift p) s =
  (Some (fst (run p (s_in s) (e_end E))), set_in s (snd (run p (s_in s) (e_end E)))).
Proof.
  revert s; induction p as [a|er|n k IH|n k IH|n k IH]; intros s; cbn [slift srun run sexec].
  - cbn. rewrite set_in_id. reflexivity.
  - cbn. rewrite set_in_id. reflexivity.
  - destruct (fl_read n (s_in s) (e_end E)) as [r i]. rewrite IH. reflexivity.
  - destruct (fl_copy n (s_in s) (e_end E)) as [r i]. rewrite IH. reflexivity.
  - apply IH.
Qed.

Definition is_read {R} (e : seff R) : bool :=
  match e with SRead _ | SCopy _ => true | _ => false end.
Fixpoint noreads {A} (p : sprog A) : Prop :=
  match p with
  | SRet _ | SPanic => True
  | SDo e k => is_read e = false /\ forall r, noreads (k r)
  end.
Lemma noreads_bind {A B} (p : sprog A) (f : A -> sprog B) :
  noreads p -> (forall a, noreads (f a)) -> noreads (sbind p f).
Proof. intros Hp Hf; induction p as [a| |R e k IH]; cbn in *; auto. destruct Hp; auto. Qed.

Lemma sexec_in {R} C E (e : seff R) s i : is_read e = false ->
  sexec C E e (set_in s i) = (fst (sexec C E e s), set_in (snd (sexec C E e s)) i).
Proof.
  destruct e; intros H; try discriminate H; cbn [sexec]; try reflexivity.
  - cbn. destruct (e_write E (s_step s) b) as [n err]; reflexivity.
  - cbn. destruct (e_store E (s_step s)); reflexivity.
  - cbn. destruct (check_and_update _ c) as [r w]; reflexivity.
Qed.
Lemma srun_in {A} C E (p : sprog A) : noreads p -> forall s i,
  srun C E p (set_in s i) = (fst (srun C E p s), set_in (snd (srun C E p s)) i).
Proof.
  induction p as [a| |R e k IH]; cbn [noreads srun]; intros H s i; [reflexivity..|].
  destruct H as [H1 H2]. rewrite sexec_in by assumption.
  destruct (sexec C E e s) as [r s'] eqn:Es. cbn [fst snd]. apply IH, H2.
Qed.
Lemma sexec_keeps_in {R} C E (e : seff R) s : is_read e = false -> s_in (snd (sexec C E e s)) = s_in s.
Proof.
  destruct e; intros H; try discriminate H; cbn [sexec]; try reflexivity.
  - destruct (e_write E (s_step s) b) as [n err]; reflexivity.
  - destruct (e_store E (s_step s)); reflexivity.
  - destruct (check_and_update _ c) as [r w]; reflexivity.
Qed.
Lemma srun_keeps_in {A} C E (p : sprog A) : noreads p -> forall s, s_in (snd (srun C E p s)) = s_in s.
Proof.
  induction p as [a| |R e k IH]; cbn [noreads srun]; intros H s; [reflexivity..|].
  destruct H as [H1 H2]. pose proof (sexec_keeps_in C E e s H1) as K.
  destruct (sexec C E e s) as [r s'] eqn:Es. cbn [snd] in K. rewrite IH by apply H2. exact K.
Qed.

Ltac nr := repeat match goal with
  | |- noreads (sbind _ _) => apply noreads_bind; [|intros]
  | |- noreads (sdo _) => cbn; auto
  | |- noreads (reply_error _ _) => unfold reply_error, write_error_response
  | |- noreads (write_error_response _) => unfold write_error_response
  | |- noreads (write_response _) => unfold write_response
  | |- noreads (SRet _) => exact I
  | |- noreads SPanic => exact I
  | |- noreads (match ?x with _ => _ end) => destruct x
  | |- noreads (let '_ := _ in _) => cbv zeta
  end.
Lemma noreads_setup C m : noreads (setup_after C m).
Proof. unfold setup_after. nr. Qed.
Lemma noreads_process C m : noreads (process_after C m).
Proof. unfold process_after. nr. Qed.
Lemma noreads_fetch C : noreads (fetch_key_handler C).
Proof. unfold fetch_key_handler. nr. Qed.
Lemma noreads_hello : noreads (write_response (enc_resp_common hello_response)).
Proof. nr. Qed.

(** ** Dispatch of well-formed requests *)
Definition after (C : Crypto) (r : request) : sprog bool :=
  match r with
  | RqHello => write_response (enc_response RsHello)
  | RqFetchKey => fetch_key_handler C
  | RqSetup id pub => setup_after C (new_setup_request id pub)
  | RqProcess id ctr msg reply => process_after C (new_process_request id ctr msg reply)
  end.
Lemma noreads_after C r : noreads (after C r).
Proof. destruct r; [apply noreads_hello|apply noreads_fetch|apply noreads_setup|apply noreads_process]. Qed.

Lemma conn_body_ok C E s r rest :
  request_ok r -> s_in s = enc_request r ++ rest -> e_quit E (s_step s) = false ->
  srun C E (conn_body C) s = srun C E (after C r) (set_in (tick s) rest).
Proof.
  intros Hr Hin Hq. unfold conn_body. rewrite srun_bind. cbn [sdo srun sexec]. rewrite Hq. cbn iota.
  unfold one_request. rewrite srun_bind, srun_lift.
  change (s_in (tick s)) with (s_in s). rewrite Hin.
  destruct r as [| |id pub|id ctr msg reply]; cbn [enc_request request_ok after enc_response] in *.
  - rewrite req_common_rt by (split; reflexivity). cbn [fst snd]. reflexivity.
  - rewrite req_common_rt by (split; reflexivity). cbn [fst snd]. reflexivity.
  - destruct Hr as [Hid Hp]. unfold enc_setup_req. rewrite <- app_assoc, req_common_rt by (split; reflexivity).
    cbn [fst snd]. unfold handle. cbn [new_setup_request sr_common rq_version rq_action].
    change (version1 =? version1) with true. change (action_setup =? action_hello) with false.
    change (action_setup =? action_setup) with true. cbn iota.
    unfold setup_handler. rewrite srun_bind, srun_lift. cbn [set_in s_in].
    assert (Hok : setup_req_ok (new_setup_request id pub)).
    { constructor; auto. split; reflexivity. }
    pose proof (setup_req_rt_body C (new_setup_request id pub) rest (e_end E) Hok) as P.
    cbn [new_setup_request sr_common sr_id sr_pub] in *. rewrite <- !app_assoc, P. reflexivity.
  - destruct Hr as (Hid & Hc & Hm). unfold enc_process_req. rewrite <- app_assoc, req_common_rt by (split; reflexivity).
    cbn [fst snd]. unfold handle. cbn [new_process_request pr_common rq_version rq_action].
    change (version1 =? version1) with true. change (action_process =? action_hello) with false.
    change (action_process =? action_setup) with false.
    change (action_process =? action_process) with true. cbn iota.
    unfold process_handler. rewrite srun_bind, srun_lift. cbn [set_in s_in].
    assert (Hok : process_req_ok (new_process_request id ctr msg reply)).
    { constructor; auto; try reflexivity. split; reflexivity. }
    pose proof (process_req_rt_body (new_process_request id ctr msg reply) rest (e_end E) Hok) as P.
    unfold process_flags in P.
    cbn [new_process_request pr_common pr_reply pr_reserved pr_id pr_counter pr_size pr_msg] in *.
    rewrite <- !app_assoc. cbn [app]. rewrite P. reflexivity.
Qed.

(** ** Writing *)
Definition clip (b : bytes) (x : N * option werr) : N * option werr := (N.min (fst x) (lenN b), snd x).

Lemma write_error_run C E b s :
  srun C E (write_error_response b) s =
  (let '(n, err) := clip b (e_write E (s_step s) b) in
   (Some (match err with Some _ => false | None => n =? lenN b end), add_sent (tick s) b n)).
Proof.
  unfold write_error_response. cbn [sdo sbind srun sexec]. unfold clip.
  destruct (e_write E (s_step s) b) as [n [er|]]; reflexivity.
Qed.
Lemma reply_error_run C E code m s :
  exists n ok, srun C E (reply_error code m) s =
    (Some ok, add_sent (tick s) (enc_response (RsError code m)) n) /\
    n <= lenN (enc_response (RsError code m)) /\
    (ok = true -> n = lenN (enc_response (RsError code m))) /\
    (writes_all E -> ok = true).
Proof.
  unfold reply_error. rewrite write_error_run. cbn [enc_response]. unfold clip.
  set (b := enc_error_resp _). destruct (e_write E (s_step s) b) as [n er] eqn:Ew. cbn [fst snd].
  exists (N.min n (lenN b)), (match er with Some _ => false | None => N.min n (lenN b) =? lenN b end).
  split; [reflexivity|]. split; [apply N.le_min_r|]. split.
  - destruct er; [discriminate|]. intros H%N.eqb_eq; exact H.
  - intros Hw. destruct (Hw (s_step s) b) as [W1 W2]. rewrite Ew in W1, W2. cbn [fst snd] in W1, W2.
    subst er. apply N.eqb_eq. lia.
Qed.

(** What [write_response] does, in full. *)
Lemma write_response_run C E r s :
  let b := enc_response r in
  exists n ok, n <= lenN b /\ (ok = true -> n = lenN b) /\
   ((srun C E (write_response b) s = (Some ok, add_sent (tick s) b n) /\ (writes_all E -> ok = true)) \/
    (~ writes_all E /\ exists n2 ok2, n2 <= lenN (enc_response (RsError 2 msg_send)) /\
       (ok2 = true -> n2 = lenN (enc_response (RsError 2 msg_send))) /\
       srun C E (write_response b) s =
       (Some ok2, add_sent (tick (add_sent (tick s) b 0)) (enc_response (RsError 2 msg_send)) n2))).
Proof.
  cbv zeta. set (b := enc_response r). unfold write_response. rewrite srun_bind.
  cbn [sdo srun sexec]. destruct (e_write E (s_step s) b) as [n er] eqn:Ew.
  set (n' := N.min n (lenN b)). assert (Hn : n' <= lenN b) by apply N.le_min_r.
  assert (HW : writes_all E -> er = None /\ n' = lenN b).
  { intros W. destruct (W (s_step s) b) as [W1 W2]. rewrite Ew in W1, W2. cbn [fst snd] in *. split; [auto|].
    unfold n'. lia. }
  destruct er as [[|]|].
  - exists n', false. split; [exact Hn|]. split; [discriminate|]. left. split; [reflexivity|].
    intros W. apply HW in W as [W _]. discriminate.
  - destruct (N.ltb_spec 0 n') as [H0|H0].
    + exists n', false. split; [exact Hn|]. split; [discriminate|]. left. split; [reflexivity|].
      intros W. apply HW in W as [W _]. discriminate.
    + exists 0, false. split; [lia|]. split; [discriminate|]. right.
      assert (n' = 0) as -> by lia. split; [intros W; apply HW in W as [W _]; discriminate|].
      destruct (reply_error_run C E code_server_error msg_send (add_sent (tick s) b 0))
        as (n2 & ok2 & R & R1 & R2 & _).
      exists n2, ok2. unfold reply_error in R. change code_server_error with 2 in *. auto.
  - exists n', (n' =? lenN b). split; [exact Hn|]. split; [intros H%N.eqb_eq; exact H|]. left.
    split; [reflexivity|]. intros W. apply HW in W as [_ W]. apply N.eqb_eq, W.
Qed.

Lemma responded_add s b n r : s_sent b = s_sent s -> responded s (add_sent (tick b) (enc_response r) n) r.
Proof. intros H. exists n. cbn. rewrite H. reflexivity. Qed.
