(** What can make the goroutine of a connection panic. *)
From Verif Require Import Bytes Parser Crypto Kdf Wire Replay Server ServerSeq Keys ServerProofs MultiConn SpecMulti.

Definition panics {R} (e : seff R) : R -> Prop :=
  match e with
  | SHandler _ _ _ _ => fun r => r = HPanic
  | SSign _ _ => fun r => r = KPanic
  | SFetchKey => fun r => r = KPanic
  | _ => fun _ => False
  end.
(** A program that panics only where the environment did. *)
Fixpoint np {A} (p : sprog A) : Prop :=
  match p with
  | SRet _ => True
  | SPanic => False
  | SDo e k => forall r, np (k r) \/ (panics e r /\ k r = SPanic)
  end.

Lemma np_bind {A B} (p : sprog A) (f : A -> sprog B) : np p -> (forall a, np (f a)) -> np (sbind p f).
Proof.
  intros Hp Hf. induction p as [a| |R e k IH]; cbn in *; auto. intros r. destruct (Hp r) as [H|[H1 H2]]; [auto|].
  right. rewrite H2. auto.
Qed.
Lemma np_do {R} (e : seff R) : np (sdo e). Proof. cbn. auto. Qed.
Lemma np_lift {A} (p : parser A) : np (slift p).
Proof. induction p; cbn; auto. Qed.

Ltac npt := repeat match goal with
  | |- np (sbind (slift _) _) => apply np_bind; [apply np_lift|intros]
  | |- np (sbind (sdo _) _) => apply np_bind; [apply np_do|intros]
  | |- np (sbind _ _) => apply np_bind; [|intros]
  | |- np (sdo _) => apply np_do
  | |- np (reply_error _ _) => unfold reply_error, write_error_response
  | |- np (write_error_response _) => unfold write_error_response
  | |- np (write_response _) => unfold write_response
  | |- np (SRet _) => exact I
  | |- np (match ?x with _ => _ end) => destruct x
  | |- np (let '_ := _ in _) => cbv zeta
  end.
(** A step whose panic is answered by a panic. *)
Lemma np_ask {R B} (e : seff R) (f : R -> sprog B) :
  (forall r, np (f r) \/ (panics e r /\ f r = SPanic)) -> np (sbind (sdo e) f).
Proof. intros H r. apply H. Qed.

Lemma np_setup C m : np (setup_after C m).
Proof.
  unfold setup_after. apply np_bind; [apply np_do|]. intros [sk|]; [|npt]. destruct (x_dh C sk (sr_pub m)); [|npt].
  apply np_bind; [apply np_do|]. intros [host|]; [|npt]. apply np_bind; [apply np_do|]. intros p.
  apply np_bind; [apply np_do|]. intros ok. destruct (negb ok); [npt|]. cbv zeta. apply np_ask. intros [sg| |]; [left|left; npt|right; split; reflexivity].
  cbn [new_hash_type]. npt.
Qed.
Lemma np_process C m : np (process_after C m).
Proof.
  unfold process_after. apply np_bind; [apply np_do|]. intros [host|]; [|npt]. apply np_bind; [apply np_do|]. intros [p|]; [|npt].
  apply np_bind; [apply np_do|]. intros fresh. destruct (negb fresh); [npt|]. apply np_bind; [apply np_do|]. intros secret.
  destruct (new_gcm C secret); [|npt]. destruct (gcm_open _ _ _ _); [|npt]. apply np_ask.
  intros [out| |]; [left|left; npt|right; split; reflexivity]. npt.
Qed.
Lemma np_fetch C : np (fetch_key_handler C).
Proof.
  unfold fetch_key_handler. apply np_ask. intros [[alg pk]| |]; [left; npt|left; npt|right; split; reflexivity].
Qed.
Lemma np_one C : np (one_request C).
Proof.
  unfold one_request. apply np_bind; [apply np_lift|]. intros [e|rc]; [exact I|]. destruct (rq_version rc =? version1); [|exact I].
  unfold handle. destruct (rq_action rc =? action_hello); [npt|].
  destruct (rq_action rc =? action_setup). { unfold setup_handler. apply np_bind; [apply np_lift|]. intros [e|m]; [npt|apply np_setup]. }
  destruct (rq_action rc =? action_process). { unfold process_handler. apply np_bind; [apply np_lift|]. intros [e|m]; [npt|apply np_process]. }
  destruct (rq_action rc =? action_fetch_key); [apply np_fetch|exact I].
Qed.
Lemma np_body C : np (conn_body C).
Proof. unfold conn_body. apply np_bind; [apply np_do|]. intros [|]; [exact I|apply np_one]. Qed.

(** The last thing a connection did was to ask the handler or the key manager, who
    panicked. *)
Definition blame (E : senv) (c : conn) : Prop :=
  (exists l p n reply msg k, c_calls c = l ++ [(p, n, reply, msg)] /\ e_handler E k reply msg = HPanic) \/
  (exists k h x, e_sign E k h x = KPanic) \/ (exists k, e_fetch E k = KPanic).

Lemma step_np C E tcp m c m' c' : np (c_prog c) \/ (c_prog c = SPanic /\ blame E c) -> conn_step C E tcp m c = (m', c') ->
  np (c_prog c') \/ (c_prog c' = SPanic /\ blame E c').
Proof.
  unfold conn_step. intros [H|[H B]] St.
  - destruct (c_prog c) as [[|]| |R e k] eqn:P.
    + destruct tcp; injection St as <- <-; left; [apply np_body|rewrite P; exact I].
    + injection St as <- <-. left. rewrite P. exact I.
    + destruct H.
    + cbn [np] in H. assert (A : c_prog c' = k (fst (sexec C E e (join m c))) /\ c' = conn_of (k (fst (sexec C E e (join m c)))) (snd (sexec C E e (join m c)))).
      { destruct (sexec C E e (join m c)) as [r s]. injection St as <- <-. auto. }
      destruct A as [A1 A2]. rewrite A1. clear St A1. destruct (H (fst (sexec C E e (join m c)))) as [H1|[H1 H2]]; [auto|right].
      split; [exact H2|]. subst c'. destruct e; try contradiction; cbn in H1; unfold blame.
      * left. cbn. exists (c_calls c), p, c0, reply, msg, (c_step c). auto.
      * right. left. eauto.
      * right. right. eauto.
  - rewrite H in St. injection St as <- <-. auto.
Qed.

Lemma run_np C E tcp sched : forall t, (forall i, np (c_prog (t_conn t i)) \/ (c_prog (t_conn t i) = SPanic /\ blame (E i) (t_conn t i))) ->
  forall i, np (c_prog (t_conn (mrun C E tcp sched t) i)) \/
    (c_prog (t_conn (mrun C E tcp sched t) i) = SPanic /\ blame (E i) (t_conn (mrun C E tcp sched t) i)).
Proof.
  unfold mrun. induction sched as [|a sched IH]; intros t H; [exact H|]. cbn [fold_left]. apply IH. clear IH. intros i.
  destruct a as [j|k]; [|apply H]. unfold mstep, set_conn. cbn [t_conn]. destruct (Nat.eqb_spec i j) as [->|]; [|apply H].
  destruct (conn_step C (E j) (tcp j) (t_mem t) (t_conn t j)) as [m' c'] eqn:St. apply (step_np _ _ _ _ _ _ _ (H j) St).
Qed.

Theorem crash_blame C E tcp inputs m sched i :
  let c := t_conn (mrun C E tcp sched (starting C tcp inputs m)) i in
  status_of (tcp i) c = Crashed ->
  (exists l p n reply msg k, c_calls c = l ++ [(p, n, reply, msg)] /\ e_handler (E i) k reply msg = HPanic) \/
  (exists k h x, e_sign (E i) k h x = KPanic) \/ (exists k, e_fetch (E i) k = KPanic).
Proof.
  cbv zeta. intros Hs. pose proof (run_np C E tcp sched (starting C tcp inputs m)) as R.
  destruct (R (fun j => or_introl (match tcp j as b return np (c_prog (fresh_conn C b (inputs j))) with true => np_body C | false => np_one C end)) i) as [H|[_ H]]; [|exact H].
  unfold status_of in Hs. destruct (c_prog _) as [[|]| |]; try discriminate Hs; [destruct (tcp i); discriminate Hs|destruct H].
Qed.

(** With the key manager in memory only the handler is left. *)
Theorem crash_handler C E tcp inputs m sched i sk rnd :
  (forall k h x, e_sign (E i) k h x = sign C sk (rnd k) h x) -> (forall k, e_fetch (E i) k = fetch_key C sk) ->
  let c := t_conn (mrun C E tcp sched (starting C tcp inputs m)) i in
  status_of (tcp i) c = Crashed ->
  exists l p n reply msg k, c_calls c = l ++ [(p, n, reply, msg)] /\ e_handler (E i) k reply msg = HPanic.
Proof.
  cbv zeta. intros Hs Hf Hc. destruct (crash_blame _ _ _ _ _ _ _ Hc) as [H|[(k & h & x & H)|(k & H)]]; [exact H| |]; exfalso.
  - rewrite Hs in H. unfold sign in H. destruct (digest C h x); [|discriminate H]. destruct sk; try discriminate H.
    + destruct (rsa_sign _ _ _ _); discriminate H.
    + destruct (ecdsa_sign _ _ _ _); discriminate H.
  - rewrite Hf in H. unfold fetch_key in H. destruct sk as [k1|k1|k1|]; try discriminate H. destruct (ecdsa_pub C k1) as [[c1 x1] y1]. discriminate H.
Qed.
