(** Lemmas for C172 and C173: what a deadline does to a request or a reply that
    is being read. *)
From Verif Require Import Bytes BytesProofs Parser ParserProofs Crypto Kdf Wire WireProofs WireSeq Replay Server ServerSeq SpecServer MultiConn Keys Client ClientSeq
  Timed SpecTimed TimedProofs TimedClient TimedArrival.

(** Parsers that give up at an I/O error. *)
Fixpoint strict {A} (p : parser A) : Prop :=
  match p with
  | PRet _ | PFail _ => True
  | PRead _ k => k (inl EIO) = PFail EIO /\ forall r, strict (k r)
  | PCopy _ k => (forall b, k (b, Some EIO) = PFail EIO) /\ forall r, strict (k r)
  | PAlloc _ k => strict k
  end.
Lemma strict_bind {A B} (p : parser A) (f : A -> parser B) : strict p -> (forall a, strict (f a)) -> strict (pbind p f).
Proof.
  intros H F. induction p as [a|e|n k IH|n k IH|n k IH]; cbn [pbind strict] in *; auto.
  - destruct H as [H1 H2]. split; [rewrite H1; reflexivity|auto].
  - destruct H as [H1 H2]. split; [intros b; rewrite H1; reflexivity|auto].
Qed.
Lemma strict_read n : strict (pread n).
Proof. cbn. split; [reflexivity|]. intros [e|b]; exact I. Qed.
Lemma strict_copy1 : strict pcopy1.
Proof.
  cbn. split; [reflexivity|]. intros [m [e|]]; [exact I|]. destruct m as [|b [|c m]]; exact I.
Qed.
Lemma strict_req_common : strict parse_req_common.
Proof. apply strict_bind; [apply strict_copy1|intros; exact I]. Qed.
Lemma strict_resp_common : strict parse_resp_common.
Proof. apply strict_bind; [apply strict_copy1|intros; exact I]. Qed.
Lemma strict_setup C rc : strict (parse_setup_req C rc).
Proof.
  apply strict_bind; [apply strict_read|intros id]. apply strict_bind; [apply strict_read|intros sz].
  destruct (max_key_size <? be_dec sz); [exact I|]. apply strict_bind; [exact I|intros _].
  apply strict_bind; [apply strict_read|intros raw]. apply strict_bind; [|intros; exact I].
  unfold parse_ecdh. destruct (pkix_parse C raw) as [[]|]; exact I.
Qed.
Lemma strict_process rc : strict (parse_process_req rc).
Proof.
  apply strict_bind; [apply strict_copy1|intros f]. apply strict_bind; [apply strict_read|intros id].
  apply strict_bind; [apply strict_read|intros c]. apply strict_bind; [apply strict_read|intros sz].
  destruct (max_message_size <? be_dec sz); [exact I|]. apply strict_bind; [exact I|intros _].
  apply strict_bind; [apply strict_read|intros; exact I].
Qed.
Lemma strict_process_resp rc : strict (parse_process_resp rc).
Proof.
  apply strict_bind; [apply strict_read|intros c]. apply strict_bind; [apply strict_read|intros sz].
  destruct (max_message_size <? be_dec sz); [exact I|]. apply strict_bind; [exact I|intros _].
  apply strict_bind; [apply strict_read|intros; exact I].
Qed.
Lemma strict_error_resp rc : strict (parse_error_resp rc).
Proof.
  apply strict_bind; [apply strict_read|intros c]. apply strict_bind; [apply strict_read|intros sz]. cbv zeta.
  destruct (0 <? be_dec sz); [|exact I]. cbn. split; [reflexivity|]. intros [m [e|]]; [exact I|]. destruct (_ && _); exact I.
Qed.

(** * The server *)

(** Nothing but writes is left, and a Write that is too late ends it. *)
Fixpoint tailp (p : sprog bool) : Prop :=
  match p with
  | SRet _ => True
  | SPanic => False
  | SDo e k =>
      match e in seff R return (R -> sprog bool) -> (R -> Prop) -> Prop with
      | SWrite _ => fun k kp => k (0, Some WDeadline) = SRet false /\ forall r, kp r
      | _ => fun _ _ => False
      end k (fun r => tailp (k r))
  end.
(** No reads are left. *)
Fixpoint workp (p : sprog bool) : Prop :=
  match p with
  | SRet _ | SPanic => True
  | SDo e k =>
      match e in seff R return (R -> sprog bool) -> (R -> Prop) -> Prop with
      | SRead _ | SCopy _ => fun _ _ => False
      | SWrite _ => fun k _ => k (0, Some WDeadline) = SRet false /\ forall r, tailp (k r)
      | _ => fun _ kp => forall r, kp r
      end k (fun r => workp (k r))
  end.
Definition cut (p : sprog bool) : Prop := p = SRet false \/ p = reply_error code_malformed msg_parse.
(** Reads first. *)
Fixpoint readp (p : sprog bool) : Prop :=
  match p with
  | SRet _ | SPanic => True
  | SDo e k =>
      match e in seff R return sprog bool -> (R -> sprog bool) -> (R -> Prop) -> Prop with
      | SRead _ => fun _ k kp => cut (k (inl EIO)) /\ forall r, kp r
      | SCopy _ => fun _ k kp => (forall b, cut (k (b, Some EIO))) /\ forall r, kp r
      | SAlloc _ => fun _ _ kp => forall r, kp r
      | _ => fun p _ _ => workp p
      end p k (fun r => readp (k r))
  end.

Lemma tailp_error code msg : tailp (reply_error code msg).
Proof. cbn. split; [reflexivity|]. intros [n [[|]|]]; exact I. Qed.
Lemma tailp_work p : tailp p -> workp p.
Proof. destruct p as [a| |R e k]; intros H; [exact I|exact I|]. destruct e; try contradiction. exact H. Qed.
Lemma workp_read p : workp p -> readp p.
Proof.
  induction p as [a| |R e k IH]; intros H; [exact I|exact I|]. destruct e; try contradiction; try exact H.
  cbn [workp readp] in *. auto.
Qed.
Lemma workp_error code msg : workp (reply_error code msg).
Proof. apply tailp_work, tailp_error. Qed.
Lemma workp_response b : workp (write_response b).
Proof.
  cbn. split; [reflexivity|]. intros [n [[|]|]]; [exact I| |exact I]. destruct (0 <? n); [exact I|].
  cbn. split; [reflexivity|]. intros [m [[|]|]]; exact I.
Qed.
Lemma workp_setup C m : workp (setup_after C m).
Proof.
  unfold setup_after. cbn [sdo sbind workp]. intros [sk|]; [|apply workp_error].
  destruct (x_dh C sk (sr_pub m)) as [shared|]; [|apply workp_error]. cbn [sdo sbind workp].
  intros [host|]; [|apply workp_error]. cbn [sdo sbind workp]. intros p ok. destruct (negb ok); [apply workp_error|].
  cbn [sdo sbind workp]. intros [sig| |]; [|apply workp_error|exact I].
  destruct (new_hash_type SHA512); [apply workp_response|exact I].
Qed.
Lemma workp_process C m : workp (process_after C m).
Proof.
  unfold process_after. cbn [sdo sbind workp]. intros [host|]; [|apply workp_error]. cbn [sdo sbind workp].
  intros [p|]; [|apply workp_error]. cbn [sdo sbind workp]. intros fresh. destruct (negb fresh); [apply workp_error|].
  cbn [sdo sbind workp]. intros secret. destruct (new_gcm C secret) as [key|]; [|apply workp_error].
  destruct (gcm_open _ _ _ _) as [msg|]; [|apply workp_error]. cbn [sdo sbind workp].
  intros [out| |]; [|apply workp_error|exact I]. destruct (pr_reply m); [|exact I]. cbn [sdo sbind workp]. intros ct. apply workp_response.
Qed.
Lemma workp_fetch C : workp (fetch_key_handler C).
Proof.
  unfold fetch_key_handler. cbn [sdo sbind workp]. intros [[alg pk]| |]; [|apply workp_error|exact I].
  destruct (pkix_marshal C pk); [apply workp_response|apply workp_error].
Qed.
Lemma readp_lift {A} (p : parser A) f : strict p -> cut (f (inl EIO)) -> (forall r, readp (f r)) -> readp (sbind (slift p) f).
Proof.
  intros H X F. induction p as [a|e|n k IH|n k IH|n k IH]; cbn [strict slift sbind readp] in *; auto.
  - destruct H as [H1 H2]. split; [rewrite H1; exact X|auto].
  - destruct H as [H1 H2]. split; [intros b; rewrite H1; exact X|auto].
Qed.
Lemma readp_request C : readp (one_request C).
Proof.
  unfold one_request. apply readp_lift; [apply strict_req_common|left; reflexivity|].
  intros [e|rc]; [exact I|]. destruct (rq_version rc =? version1); [|exact I]. unfold handle.
  destruct (rq_action rc =? action_hello); [apply workp_read, workp_response|].
  destruct (rq_action rc =? action_setup).
  { apply readp_lift; [apply strict_setup|right; reflexivity|]. intros [e|m]; [apply workp_read, workp_error|apply workp_read, workp_setup]. }
  destruct (rq_action rc =? action_process).
  { apply readp_lift; [apply strict_process|right; reflexivity|]. intros [e|m]; [apply workp_read, workp_error|apply workp_read, workp_process]. }
  destruct (rq_action rc =? action_fetch_key); [apply workp_read, workp_fetch|exact I].
Qed.

Section server.
Variables (C : Crypto) (E : senv) (delay : nat -> N).
Notation trun := (trun C E delay). Notation srun := (srun C E).

(** The same apart from what was written. *)
Definition alike (s s0 : sst) : Prop := mem_of s = mem_of s0 /\ s_calls s = s_calls s0 /\ s_in s = s_in s0.
Lemma alike_trans s1 s2 s3 : alike s1 s2 -> alike s2 s3 -> alike s1 s3.
Proof. intros (A & B & D) (A' & B' & D'). repeat split; congruence. Qed.
Lemma alike_sym s1 s2 : alike s1 s2 -> alike s2 s1.
Proof. intros (A & B & D). repeat split; congruence. Qed.

Lemma tail_srun p : tailp p -> forall s, alike (snd (srun p s)) s.
Proof.
  induction p as [a| |R e k IH]; intros H s; [repeat split|contradiction|]. destruct e; try contradiction. destruct H as [_ H].
  cbn [ServerSeq.srun sexec]. destruct (e_write E (s_step s) b) as [n err].
  eapply alike_trans; [apply IH, H|]. repeat split.
Qed.
Definition synced (r : option bool) (s : sst) (r0 : option bool) (s0 : sst) : Prop :=
  alike s s0 /\ ((r, s) = (r0, s0) \/ r = Some false).
Lemma tail_sync p : tailp p -> forall t s, let '(r, (t', s')) := trun p t s in let '(r0, s0) := srun p s in synced r s' r0 s0.
Proof.
  induction p as [a| |R e k IH]; intros H t s; [split; [repeat split|left; reflexivity]|contradiction|].
  destruct e; try contradiction. cbn [Timed.trun texec]. destruct (past (t_wd t) (t_now t)) eqn:P.
  - pose proof (tail_srun (SDo (SWrite b) k) H s) as A. destruct H as [-> _]. cbn [Timed.trun].
    destruct (srun (SDo (SWrite b) k) s) as [r0 s0]. cbn [snd] in A. split; [|right; reflexivity].
    apply alike_sym. eapply alike_trans; [exact A|]. repeat split.
  - destruct H as [_ H]. cbn [ServerSeq.srun]. destruct (sexec C E (SWrite b) s) as [r1 s1]. cbn [fst snd]. apply IH, H.
Qed.
Lemma work_sync p : workp p -> forall t s, let '(r, (t', s')) := trun p t s in let '(r0, s0) := srun p s in synced r s' r0 s0.
Proof.
  induction p as [a| |R e k IH]; intros H t s; [split; [repeat split|left; reflexivity]|split; [repeat split|left; reflexivity]|].
  destruct e; try contradiction; try (cbn [Timed.trun texec ServerSeq.srun];
    match goal with |- context [sexec C E ?e s] => destruct (sexec C E e s) as [r1 s1] end; cbn [fst snd]; apply IH, H; fail).
  assert (T : tailp (SDo (SWrite b) k)) by exact H. apply (tail_sync _ T t s).
Qed.

Definition was_cut (t : tio) (s : sst) (r : option bool) (t' : tio) (s' : sst) : Prop :=
  mem_of s' = mem_of s /\ s_calls s' = s_calls s /\ (exists l, s_in s = l ++ s_in s') /\
  (s_sent s' = s_sent s \/ exists n, s_sent s' = s_sent s ++ [(enc_error_resp (new_error_response code_malformed msg_parse), n)]) /\
  past (t_rd t) (t_now t') = true /\ (r = Some true \/ r = Some false) /\
  (forall dr dw, t_rd t = Some dr -> t_wd t = Some dw -> dw <= dr -> r = Some false).
Lemma cut_run p t s : cut p -> past (t_rd t) (t_now t) = true ->
  let '(r, (t', s')) := trun p t s in was_cut t s r t' s'.
Proof.
  intros [->| ->] L.
  - cbn [Timed.trun]. split; [reflexivity|]. split; [reflexivity|]. split; [exists []; reflexivity|]. split; [left; reflexivity|].
    split; [exact L|]. split; [right; reflexivity|]. reflexivity.
  - unfold reply_error, write_error_response. cbn [sdo sbind Timed.trun texec]. destruct (past (t_wd t) (t_now t)) eqn:P.
    + cbn [fst snd Timed.trun t_pass t_now]. split; [reflexivity|]. split; [reflexivity|]. split; [exists []; reflexivity|].
      split; [right; eexists; reflexivity|]. split; [|split; [right; reflexivity|reflexivity]].
      destruct (t_rd t); [|discriminate L]. cbn in *. apply N.leb_le in L. apply N.leb_le. lia.
    + cbn [sexec]. destruct (e_write E (s_step s) _) as [n err]. cbn [fst snd].
      assert (L' : past (t_rd t) (t_now t + delay (t_n t)) = true)
        by (destruct (t_rd t); [|discriminate L]; cbn in *; apply N.leb_le in L; apply N.leb_le; lia).
      assert (D : forall dr dw, t_rd t = Some dr -> t_wd t = Some dw -> dw <= dr -> False).
      { intros dr dw Hr Hw Hl. rewrite Hr in L. rewrite Hw in P. cbn in *. apply N.leb_le in L. apply N.leb_gt in P. lia. }
      destruct err as [e|]; cbn [Timed.trun]; (split; [reflexivity|]; split; [reflexivity|]; split; [exists []; reflexivity|];
        split; [right; eexists; reflexivity|]; split; [exact L'|]; split; [|intros; exfalso; eauto]).
      * right; reflexivity.
      * destruct (_ =? _); [left|right]; reflexivity.
Qed.

Lemma read_sync p : readp p -> forall t s, let '(r, (t', s')) := trun p t s in let '(r0, s0) := srun p s in
  synced r s' r0 s0 \/ was_cut t s r t' s'.
Proof.
  induction p as [a| |R e k IH]; intros H t s;
    [left; split; [repeat split|left; reflexivity]|left; split; [repeat split|left; reflexivity]|].
  assert (Step : forall t1 s1 r t' s', t_rd t1 = t_rd t -> t_wd t1 = t_wd t -> s1 = set_in s (s_in s1) -> (exists l, s_in s = l ++ s_in s1) ->
    was_cut t1 s1 r t' s' -> was_cut t s r t' s').
  { intros t1 s1 r t' s' T1 T2 S1 (i & I1) (W1 & W2 & (j & W3) & W4 & W5 & W6 & W7).
    split; [rewrite W1, S1; reflexivity|]. split; [rewrite W2, S1; reflexivity|].
    split; [exists (i ++ j); rewrite I1, W3, app_assoc; reflexivity|]. split; [rewrite S1 in W4; exact W4|].
    split; [rewrite <- T1; exact W5|]. split; [exact W6|]. rewrite <- T1, <- T2. exact W7. }
  destruct e; try (match goal with H : readp _ |- _ => generalize (work_sync _ H t s) end;
    destruct (trun _ t s) as [? [? ?]], (srun _ s) as [? ?]; intros W; left; exact W).
  - destruct H as [H1 H2]. cbn [Timed.trun texec ServerSeq.srun].
    pose proof (t_wait_keeps n (s_in s) t) as (K1 & K2 & _ & _). pose proof (t_wait_late n (s_in s) t) as K3.
    destruct (t_wait n (s_in s) t) as [[j|] t1]; cbn [fst snd] in *.
    + set (t2 := t_pass delay t1). set (s2 := set_in s (dropN j (s_in s))).
      assert (L : past (t_rd t2) (t_now t2) = true).
      { specialize (K3 j eq_refl). unfold t2. cbn. rewrite K1. destruct (t_rd t); [|discriminate K3]. cbn in *. apply N.leb_le in K3. apply N.leb_le. lia. }
      pose proof (cut_run _ t2 s2 H1 L) as X. destruct (trun (k (inl EIO)) t2 s2) as [r [t' s']].
      destruct (let '(r0, s0) := sexec C E (SRead n) s in srun (k r0) s0) as [r0 s0]. right.
      apply (Step t2 s2); [exact K1|exact K2|reflexivity|exists (takeN j (s_in s)); symmetry; apply takeN_dropN|exact X].
    + cbn [sexec]. destruct (fl_read n (s_in s) (e_end E)) as [x i] eqn:FR. cbn [fst snd].
      specialize (IH x (H2 x) (t_pass delay t1) (set_in s i)).
      destruct (trun (k x) (t_pass delay t1) (set_in s i)) as [r [t' s']], (srun (k x) (set_in s i)) as [r0 s0].
      destruct IH as [IH|IH]; [left; exact IH|right]. apply (Step (t_pass delay t1) (set_in s i)); [exact K1|exact K2|reflexivity| |exact IH].
      exists (takeN n (s_in s)). pose proof (read_left n (s_in s) (e_end E)) as RL. rewrite FR in RL. cbn [snd] in RL. subst i. symmetry. apply takeN_dropN.
  - destruct H as [H1 H2]. cbn [Timed.trun texec ServerSeq.srun].
    pose proof (t_wait_keeps n (s_in s) t) as (K1 & K2 & _ & _). pose proof (t_wait_late n (s_in s) t) as K3.
    destruct (t_wait n (s_in s) t) as [[j|] t1]; cbn [fst snd] in *.
    + set (t2 := t_pass delay t1). set (s2 := set_in s (dropN j (s_in s))).
      assert (L : past (t_rd t2) (t_now t2) = true).
      { specialize (K3 j eq_refl). unfold t2. cbn. rewrite K1. destruct (t_rd t); [|discriminate K3]. cbn in *. apply N.leb_le in K3. apply N.leb_le. lia. }
      pose proof (cut_run _ t2 s2 (H1 (takeN j (s_in s))) L) as X. destruct (trun (k (takeN j (s_in s), Some EIO)) t2 s2) as [r [t' s']] eqn:Q.
      assert (X' : was_cut t2 s2 r t' s') by (change bytes with (list byte) in *; rewrite Q in X; exact X). clear X; rename X' into X.
      destruct (let '(r0, s0) := sexec C E (SCopy n) s in srun (k r0) s0) as [r0 s0]. right.
      apply (Step t2 s2); [exact K1|exact K2|reflexivity|exists (takeN j (s_in s)); symmetry; apply takeN_dropN|exact X].
    + cbn [sexec]. destruct (fl_copy n (s_in s) (e_end E)) as [x i] eqn:FR. cbn [fst snd].
      specialize (IH x (H2 x) (t_pass delay t1) (set_in s i)).
      destruct (trun (k x) (t_pass delay t1) (set_in s i)) as [r [t' s']], (srun (k x) (set_in s i)) as [r0 s0].
      destruct IH as [IH|IH]; [left; exact IH|right]. apply (Step (t_pass delay t1) (set_in s i)); [exact K1|exact K2|reflexivity| |exact IH].
      exists (takeN n (s_in s)). pose proof (copy_left n (s_in s) (e_end E)) as RL. rewrite FR in RL. cbn [snd] in RL. subst i. symmetry. apply takeN_dropN.
  - cbn [Timed.trun texec ServerSeq.srun sexec fst snd]. specialize (IH tt (H tt) (t_pass delay t) s).
    destruct (trun (k tt) (t_pass delay t) s) as [r [t' s']], (srun (k tt) s) as [r0 s0]. exact IH.
Qed.
End server.

Lemma slow_request C E delay rto wto t s :
  let '(r, (t', s')) := tbody C E delay rto wto t s in let '(r0, s0) := srun C E (conn_body C) s in
  (mem_of s' = mem_of s0 /\ s_calls s' = s_calls s0 /\ s_in s' = s_in s0 /\ ((r, s') = (r0, s0) \/ r = Some false)) \/
  (mem_of s' = mem_of s /\ s_calls s' = s_calls s /\ (exists l, s_in s = l ++ s_in s') /\
   (s_sent s' = s_sent s \/ exists n, s_sent s' = s_sent s ++ [(enc_error_resp (new_error_response code_malformed msg_parse), n)]) /\
   (0 < rto -> t_now t + rto <= t_now t') /\ (r = Some true \/ r = Some false) /\ (0 < wto <= rto -> r = Some false)).
Proof.
  unfold tbody, conn_body. cbn [sdo sbind srun sexec]. destruct (e_quit E (s_step s)).
  { left. repeat split; auto. }
  set (t1 := t_set_wd wto (t_set_rd rto t)).
  assert (Now : t_rd t1 = if 0 <? rto then Some (t_now t + rto) else t_rd t) by (unfold t1, t_set_wd, t_set_rd; destruct (0 <? rto), (0 <? wto); reflexivity).
  assert (Nowd : t_wd t1 = if 0 <? wto then Some (t_now t + wto) else t_wd t) by (unfold t1, t_set_wd, t_set_rd; destruct (0 <? rto), (0 <? wto); reflexivity).
  pose proof (read_sync C E delay _ (readp_request C) t1 (tick s)) as R.
  destruct (trun C E delay (one_request C) t1 (tick s)) as [r [t' s']], (srun C E (one_request C) (tick s)) as [r0 s0].
  destruct R as [[(A & B & D) F]|(W1 & W2 & W3 & W4 & W5 & W6 & W7)]; [left; auto|right].
  split; [exact W1|]. split; [exact W2|]. split; [exact W3|]. split; [exact W4|]. split.
  { intros Hr. rewrite Now in W5. destruct (N.ltb_spec 0 rto); [|lia]. apply N.leb_le in W5. exact W5. }
  split; [exact W6|]. intros [Hw Hl]. apply (W7 (t_now t + rto) (t_now t + wto)); [| |lia].
  - rewrite Now. destruct (N.ltb_spec 0 rto); [reflexivity|lia].
  - rewrite Nowd. destruct (N.ltb_spec 0 wto); [reflexivity|lia].
Qed.

(** * A request cut by the deadline *)
Lemma latest_le l b : Forall (fun x => x <= b) l -> latest l <= b.
Proof. induction 1 as [|x l Hx _ IH]; [cbn; lia|]. change (N.max x (latest l) <= b). lia. Qed.
Lemma latest_in l x : In x l -> x <= latest l.
Proof.
  induction l as [|y l IH]; intros H; [destruct H|]. change (x <= N.max y (latest l)). destruct H as [->|H]; [lia|]. specialize (IH H). lia.
Qed.
Lemma takeN_short {A} n (a b : list A) : n <= lenN a -> takeN n (a ++ b) = takeN n a.
Proof.
  intros H. rewrite (proj1 (takeN_firstn n (a ++ b))), (proj1 (takeN_firstn n a)), firstn_app.
  replace (N.to_nat n - length a)%nat with 0%nat by (unfold lenN in H; lia). cbn. apply app_nil_r.
Qed.

Lemma split_len {A} (l : list A) n : (n <= length l)%nat -> exists a b, l = a ++ b /\ length a = n.
Proof. intros H. exists (firstn n l), (skipn n l). rewrite firstn_skipn, firstn_length. split; [reflexivity|lia]. Qed.

Section slow.
Variables (C : Crypto) (E : senv) (delay : nat -> N).
Hypothesis D0 : forall i, delay i = 0.
Notation trun := (trun C E delay).

Lemma wait_ok n x inp t e arr d : lenN x = n -> n <> 0 -> t_arr t = e ++ arr -> lenN e = n -> Forall (fun a => a <= t_now t) e ->
  t_rd t = Some d -> t_now t < d -> t_wait n (x ++ inp) t = (None, t_at t (t_now t) arr).
Proof.
  intros Hx Hn Ha He Hf Hd Hl. unfold t_wait. destruct (N.eqb_spec n 0); [contradiction|]. unfold due.
  rewrite lenN_app. destruct (N.leb_spec n (lenN x + lenN inp)); [|lia]. rewrite Ha, takeN_app by exact He. rewrite dropN_app by exact He.
  pose proof (latest_le _ _ Hf). rewrite N.max_l by lia. rewrite Hd. destruct (N.ltb_spec (t_now t) d); [reflexivity|lia].
Qed.
Lemma wait_cut n inp t e y arr d : n <= lenN inp -> t_arr t = e ++ y :: arr -> lenN e < n -> Forall (fun a => a <= t_now t) e ->
  t_rd t = Some d -> t_now t < d -> d <= y -> t_wait n inp t = (Some (lenN e), t_at t d (y :: arr)).
Proof.
  intros Hn Ha He Hf Hd Hl Hy. unfold t_wait. destruct (N.eqb_spec n 0); [lia|]. unfold due. destruct (N.leb_spec n (lenN inp)); [|lia].
  assert (In y (takeN n (t_arr t))) as Hi.
  { rewrite Ha, (proj1 (takeN_firstn _ _)), firstn_app. apply in_or_app. right.
    destruct (N.to_nat n - length e)%nat eqn:X; [unfold lenN in He; lia|left; reflexivity]. }
  apply latest_in in Hi. rewrite Hd. destruct (N.ltb_spec (N.max (t_now t) (latest (takeN n (t_arr t)))) d); [lia|].
  destruct (N.ltb_spec (t_now t) d); [|lia].
  assert (Er : early d (t_arr t) = lenN e).
  { rewrite Ha. clear - Hf Hl Hy. induction Hf as [|a e Ha Hf IH].
    - cbn [app early]. destruct (N.ltb_spec y d); [lia|]. reflexivity.
    - cbn [app early]. destruct (N.ltb_spec a d); [|lia]. rewrite IH, lenN_cons. lia. }
  rewrite Er, N.min_l by lia. rewrite N.max_r by lia. rewrite Ha, dropN_app by reflexivity. reflexivity.
Qed.
Lemma run_read_ok n x inp (k : perr + bytes -> sprog bool) t s e arr d w : s_in s = x ++ inp -> lenN x = n -> n <> 0 -> t_arr t = e ++ arr -> lenN e = n ->
  t_now t = w -> Forall (fun a => a <= w) e -> t_rd t = Some d -> w < d ->
  exists t1, trun (SDo (SRead n) k) t s = trun (k (inr x)) t1 (set_in s inp) /\ t_now t1 = w /\ t_rd t1 = Some d /\
    t_wd t1 = t_wd t /\ t_arr t1 = arr.
Proof.
  intros Hs Hx Hn Ha He <- Hf Hd Hl. exists (t_pass delay (t_at t (t_now t) arr)). split; [|split; [|split; [exact Hd|split; reflexivity]]].
  - cbn [Timed.trun texec]. rewrite Hs, (wait_ok n x inp t e arr d) by assumption. cbn [sexec]. rewrite Hs, fl_read_app by exact Hx. reflexivity.
  - cbn. rewrite D0. lia.
Qed.
Lemma run_copy_ok n x inp (k : bytes * option perr -> sprog bool) t s e arr d w : s_in s = x ++ inp -> lenN x = n -> n <> 0 -> t_arr t = e ++ arr -> lenN e = n ->
  t_now t = w -> Forall (fun a => a <= w) e -> t_rd t = Some d -> w < d ->
  exists t1, trun (SDo (SCopy n) k) t s = trun (k (x, None)) t1 (set_in s inp) /\ t_now t1 = w /\ t_rd t1 = Some d /\
    t_wd t1 = t_wd t /\ t_arr t1 = arr.
Proof.
  intros Hs Hx Hn Ha He <- Hf Hd Hl. exists (t_pass delay (t_at t (t_now t) arr)). split; [|split; [|split; [exact Hd|split; reflexivity]]].
  - cbn [Timed.trun texec]. rewrite Hs, (wait_ok n x inp t e arr d) by assumption. cbn [sexec]. rewrite Hs, fl_copy_app by exact Hx. reflexivity.
  - cbn. rewrite D0. lia.
Qed.
End slow.

Lemma slow_reinterpreted C E delay rto wto t s id ctr a q b reply rest e l :
  (forall i, delay i = 0) -> 0 < rto -> (wto = 0 /\ t_wd t = None \/ rto < wto) ->
  e_quit E (s_step s) = false -> writes_all E -> length id = 16%nat -> ctr < 2 ^ 64 -> lenN (a ++ enc_request q ++ b) <= 2 ^ 30 ->
  s_in s = enc_request (RqProcess id ctr (a ++ enc_request q ++ b) reply) ++ rest ->
  t_arr t = e ++ l -> length e = (34 + length a)%nat -> l <> [] -> Forall (fun x => x <= t_now t) e -> Forall (fun x => t_now t + rto <= x) l ->
  exists t' s', tbody C E delay rto wto t s = (Some true, (t', s')) /\ s_in s' = enc_request q ++ b ++ rest /\
    t_now t' = t_now t + rto /\ t_arr t' = l /\ mem_of s' = mem_of s /\ s_calls s' = s_calls s /\
    (exists k, s_sent s' = s_sent s ++ [(enc_error_resp (new_error_response code_malformed msg_parse), k)]).
Proof.
  intros D0 Hr Hw Q W Hid Hc Hm Hin Ha He Hl Fe Fl.
  set (m := a ++ enc_request q ++ b) in *.
  set (t1 := t_set_wd wto (t_set_rd rto t)).
  assert (N1 : t_now t1 = t_now t) by (unfold t1, t_set_wd, t_set_rd; destruct (0 <? rto), (0 <? wto); reflexivity).
  assert (A1 : t_arr t1 = e ++ l) by (unfold t1, t_set_wd, t_set_rd; destruct (0 <? rto), (0 <? wto); exact Ha).
  assert (R1 : t_rd t1 = Some (t_now t + rto)) by (unfold t1, t_set_wd, t_set_rd; destruct (N.ltb_spec 0 rto); [destruct (0 <? wto); reflexivity|lia]).
  assert (W1 : past (t_wd t1) (t_now t + rto) = false).
  { unfold t1, t_set_wd, t_set_rd. destruct Hw as [[-> Hw]|Hw].
    - change (0 <? 0) with false. cbv iota. destruct (0 <? rto); cbn [t_wd]; rewrite Hw; reflexivity.
    - destruct (N.ltb_spec 0 wto); [|lia]. destruct (0 <? rto); cbn [t_wd t_now past]; apply N.leb_gt; lia. }
  (* the times of the parts *)
  assert (He2 : exists e1 e2 e3 e4 e5 e6, e = e1 ++ e2 ++ e3 ++ e4 ++ e5 ++ e6 /\ lenN e1 = 1 /\ lenN e2 = 1 /\ lenN e3 = 16 /\ lenN e4 = 8 /\
    lenN e5 = 8 /\ lenN e6 = lenN a).
  { destruct (split_len e 1) as (e1 & r1 & -> & L1); [lia|]. rewrite app_length in He.
    destruct (split_len r1 1) as (e2 & r2 & -> & L2); [lia|]. rewrite app_length in He.
    destruct (split_len r2 16) as (e3 & r3 & -> & L3); [lia|]. rewrite app_length in He.
    destruct (split_len r3 8) as (e4 & r4 & -> & L4); [lia|]. rewrite app_length in He.
    destruct (split_len r4 8) as (e5 & e6 & -> & L5); [lia|]. rewrite app_length in He.
    exists e1, e2, e3, e4, e5, e6. unfold lenN. repeat split; lia. }
  destruct He2 as (e1 & e2 & e3 & e4 & e5 & e6 & -> & L1 & L2 & L3 & L4 & L5 & L6).
  rewrite !Forall_app in Fe. destruct Fe as (F1 & F2 & F3 & F4 & F5 & F6).
  rewrite <- !app_assoc in A1.
  set (flag := n2b (if reply then N.lor 0 (N.shiftl 1 7) else 0)).
  assert (Hin1 : s_in (tick s) = [x13] ++ [flag] ++ id ++ be_enc 8 ctr ++ be_enc 8 (lenN m) ++ m ++ rest).
  { cbn [tick s_in]. rewrite Hin. cbn [enc_request]. unfold enc_process_req, new_process_request. cbn [pr_common pr_reply pr_reserved pr_id pr_counter pr_size pr_msg].
    rewrite <- !app_assoc. reflexivity. }
  assert (Lt : t_now t < t_now t + rto) by lia.
  unfold tbody. cbn [sexec]. rewrite Q. fold t1. unfold one_request, parse_req_common, pcopy1. cbn [pbind slift sbind].
  match goal with |- context [Timed.trun C E delay (SDo _ ?k) t1 _] =>
    destruct (run_copy_ok C E delay D0 1 ([x13]) ([flag] ++ id ++ be_enc 8 ctr ++ be_enc 8 (lenN m) ++ m ++ rest) k t1 (tick s) e1 _ _ _ Hin1 eq_refl ltac:(discriminate) A1 L1 N1 F1 R1 Lt)
      as (t2 & X & N2 & R2 & W2 & A2) end. rewrite X. clear X. cbn [slift sbind pbind].
  change (rq_version _ =? version1) with true. cbv iota. unfold handle. change (rq_action _ =? action_hello) with false.
  change (rq_action _ =? action_setup) with false. change (rq_action _ =? action_process) with true. cbv iota.
  unfold process_handler, parse_process_req, pcopy1, pread. cbn [pbind slift sbind].
  match goal with |- context [Timed.trun C E delay (SDo _ ?k) t2 _] =>
    destruct (run_copy_ok C E delay D0 1 ([flag]) (id ++ be_enc 8 ctr ++ be_enc 8 (lenN m) ++ m ++ rest) k t2 (set_in (tick s) ([flag] ++ id ++ be_enc 8 ctr ++ be_enc 8 (lenN m) ++ m ++ rest)) e2 _ _ _ eq_refl eq_refl ltac:(discriminate) A2 L2 N2 F2 R2 Lt)
      as (t3 & X & N3 & R3 & W3 & A3) end. rewrite X. clear X. cbn [slift sbind pbind].
  change (set_in (set_in (tick s) _) (id ++ be_enc 8 ctr ++ be_enc 8 (lenN m) ++ m ++ rest)) with (set_in (tick s) (id ++ be_enc 8 ctr ++ be_enc 8 (lenN m) ++ m ++ rest)).
  match goal with |- context [Timed.trun C E delay (SDo _ ?k) t3 _] =>
    destruct (run_read_ok C E delay D0 16 (id) (be_enc 8 ctr ++ be_enc 8 (lenN m) ++ m ++ rest) k t3 (set_in (tick s) (id ++ be_enc 8 ctr ++ be_enc 8 (lenN m) ++ m ++ rest)) e3 _ _ _ eq_refl ltac:(unfold lenN; rewrite Hid; reflexivity) ltac:(discriminate) A3 L3 N3 F3 R3 Lt)
      as (t4 & X & N4 & R4 & W4 & A4) end. rewrite X. clear X. cbn [slift sbind pbind].
  change (set_in (set_in (tick s) _) (be_enc 8 ctr ++ be_enc 8 (lenN m) ++ m ++ rest)) with (set_in (tick s) (be_enc 8 ctr ++ be_enc 8 (lenN m) ++ m ++ rest)).
  match goal with |- context [Timed.trun C E delay (SDo _ ?k) t4 _] =>
    destruct (run_read_ok C E delay D0 8 (be_enc 8 ctr) (be_enc 8 (lenN m) ++ m ++ rest) k t4 (set_in (tick s) (be_enc 8 ctr ++ be_enc 8 (lenN m) ++ m ++ rest)) e4 _ _ _ eq_refl (be_enc_lenN 8 _) ltac:(discriminate) A4 L4 N4 F4 R4 Lt)
      as (t5 & X & N5 & R5 & W5 & A5) end. rewrite X. clear X. cbn [slift sbind pbind].
  change (set_in (set_in (tick s) _) (be_enc 8 (lenN m) ++ m ++ rest)) with (set_in (tick s) (be_enc 8 (lenN m) ++ m ++ rest)).
  match goal with |- context [Timed.trun C E delay (SDo _ ?k) t5 _] =>
    destruct (run_read_ok C E delay D0 8 (be_enc 8 (lenN m)) (m ++ rest) k t5 (set_in (tick s) (be_enc 8 (lenN m) ++ m ++ rest)) e5 _ _ _ eq_refl (be_enc_lenN 8 _) ltac:(discriminate) A5 L5 N5 F5 R5 Lt)
      as (t6 & X & N6 & R6 & W6 & A6) end. rewrite X. clear X. cbn [slift sbind pbind].
  change (set_in (set_in (tick s) _) (m ++ rest)) with (set_in (tick s) (m ++ rest)).
  rewrite be_dec_enc_small by (change (256 ^ N.of_nat 8) with (2 ^ 64); lia).
  unfold max_message_size. destruct (N.ltb_spec (2 ^ 30) (lenN m)); [lia|]. cbn [slift sbind pbind palloc pread Timed.trun texec sexec fst snd].
  destruct l as [|y l]; [congruence|]. inversion Fl as [|? ? Fy _]; subst.
  set (t7 := t_pass delay t6).
  assert (N7 : t_now t7 = t_now t) by (unfold t7; cbn; rewrite D0; lia).
  rewrite (wait_cut (lenN m) (s_in (set_in (tick s) (m ++ rest))) t7 e6 y l (t_now t + rto));
    [|cbn [set_in s_in]; rewrite lenN_app; lia|exact A6| |rewrite N7; exact F6|exact R6|rewrite N7; exact Lt|exact Fy].
  2:{ rewrite L6. unfold m. rewrite !lenN_app. pose proof (enc_request_ne q) as Hq. destruct (enc_request q); [congruence|]. rewrite lenN_cons. lia. }
  set (t8 := t_pass delay (t_at t7 (t_now t + rto) (y :: l))).
  unfold reply_error, write_error_response. cbn [pbind slift sbind sdo Timed.trun texec].
  assert (N8 : t_now t8 = t_now t + rto) by (unfold t8; cbn; rewrite D0; lia).
  assert (W8 : t_wd t8 = t_wd t1) by (change (t_wd t8) with (t_wd t6); congruence).
  rewrite N8, W8, W1. cbn [sexec fst snd].
  match goal with |- context [e_write E ?i ?b] => pose proof (W i b) as [Wl We]; destruct (e_write E i b) as [n err] end.
  cbn [fst snd] in Wl, We. subst err. rewrite N.min_r by exact Wl. cbn [fst snd Timed.trun]. rewrite N.eqb_refl.
  do 2 eexists. split; [reflexivity|].
  split. { cbn [add_sent tick set_in s_in]. unfold m. rewrite <- !app_assoc, dropN_app by (symmetry; exact L6). reflexivity. }
  split; [cbn [t_pass t_now]; fold t7 t8; rewrite D0; change (t_now (t_pass delay (t_at t7 (t_now t + rto) (y :: l)))) with (t_now t8); lia|]. split; [reflexivity|]. split; [reflexivity|]. split; [reflexivity|]. eexists. reflexivity.
Qed.


(** * The client *)
Fixpoint stillp (p : cprog rd_result) : Prop :=
  match p with
  | CRet _ | CPanic => True
  | CDo e k =>
      match e in ceff R return (R -> Prop) -> Prop with
      | CRead _ | CCopy _ | CWrite _ | CDeadline => fun _ => False
      | _ => fun kp => forall r, kp r
      end (fun r => stillp (k r))
  end.
Definition timed_out : cprog rd_result := CRet (RdErr (RdParse EIO)).
Fixpoint areadp (p : cprog rd_result) : Prop :=
  match p with
  | CRet _ | CPanic => True
  | CDo e k =>
      match e in ceff R return (R -> cprog rd_result) -> (R -> Prop) -> Prop with
      | CRead _ => fun k kp => k (inl EIO) = timed_out /\ forall r, kp r
      | CCopy _ => fun k kp => (forall b, k (b, Some EIO) = timed_out) /\ forall r, kp r
      | CAlloc _ | CGetBuf | CGetLast => fun _ kp => forall r, kp r
      | CSetBuf _ => fun k _ => forall r, stillp (k r)
      | _ => fun _ _ => False
      end k (fun r => areadp (k r))
  end.
Lemma areadp_lift {A} (p : parser A) f : strict p -> f (inl EIO) = timed_out -> (forall r, areadp (f r)) -> areadp (cbind (clift p) f).
Proof.
  intros H X F. induction p as [a|e|n k IH|n k IH|n k IH]; cbn [strict clift cbind areadp] in *; auto.
  - destruct H as [H1 H2]. split; [rewrite H1; exact X|auto].
  - destruct H as [H1 H2]. split; [intros b; rewrite H1; exact X|auto].
Qed.
Lemma areadp_buffered b n : areadp (read_buffered b n).
Proof. unfold read_buffered. destruct (buffer_read b n) as [[d r]|]; [|exact I]. cbn. intros. exact I. Qed.
Lemma areadp_read C ses n ok : areadp (read_rest C ses n ok).
Proof.
  unfold read_rest. destruct (negb ok); [exact I|]. cbn [cdo cbind areadp]. intros buf.
  destruct (0 <? lenN buf); [apply areadp_buffered|].
  apply areadp_lift; [apply strict_resp_common|reflexivity|]. intros [e|rc]; [exact I|]. destruct (negb (rs_success rc)).
  { apply areadp_lift; [apply strict_error_resp|reflexivity|]. intros [e|er]; exact I. }
  apply areadp_lift; [apply strict_process_resp|reflexivity|]. intros [e|r]; [exact I|].
  cbn [cdo cbind areadp]. intros last. destruct (negb _); [exact I|]. destruct (client_gcm C (cs_secret ses)) as [key|]; [|exact I].
  destruct (gcm_open _ _ _ _) as [m|]; [|exact I]. cbn [cdo cbind areadp stillp]. intros b _ b2.
  unfold read_buffered. destruct (buffer_read b2 n) as [[d r2]|]; [|exact I]. cbn. intros. exact I.
Qed.

Section client.
Variables (C : Crypto) (E : cenv) (delay : nat -> N) (dl : tio -> tio).
Lemma still_same p : stillp p -> forall t s, let '(r, (t', s')) := tcrun C E delay dl p t s in (r, s') = crun C E p s.
Proof.
  induction p as [a| |R e k IH]; intros H t s; [reflexivity|reflexivity|].
  destruct e; try contradiction; cbn [tcrun tcexec crun];
    match goal with |- context [cexec C E ?e s] => destruct (cexec C E e s) as [r1 s1] end; cbn [fst snd]; apply IH, H.
Qed.
Definition gave_up (t : tio) (s : cst) (r : option rd_result) (t' : tio) (s' : cst) : Prop :=
  r = Some (RdErr (RdParse EIO)) /\ past (t_rd t) (t_now t') = true /\ (exists l, c_in s = l ++ c_in s') /\ s' = c_set_in s (c_in s').
Lemma read_same p : areadp p -> forall t s, let '(r, (t', s')) := tcrun C E delay dl p t s in
  (r, s') = crun C E p s \/ gave_up t s r t' s'.
Proof.
  induction p as [a| |R e k IH]; intros H t s; [left; reflexivity|left; reflexivity|].
  assert (Step : forall t1 s1 r t' s', t_rd t1 = t_rd t -> s1 = c_set_in s (c_in s1) -> (exists i, c_in s = i ++ c_in s1) ->
    gave_up t1 s1 r t' s' -> gave_up t s r t' s').
  { intros t1 s1 r t' s' T1 S1 (i & I1) (G1 & G2 & (j & G3) & G4). split; [exact G1|]. split; [rewrite <- T1; exact G2|].
    split; [exists (i ++ j); rewrite I1, G3, app_assoc; reflexivity|]. rewrite G4, S1. reflexivity. }
  destruct e; try contradiction;
    try (cbn [tcrun tcexec crun cexec fst snd];
      match goal with |- context [crun C E (k ?r) s] => specialize (IH r (H r) (t_pass delay t) s); destruct (tcrun C E delay dl (k r) (t_pass delay t) s) as [x [t' s']] end;
      exact IH).
  - destruct H as [H1 H2]. cbn [tcrun tcexec crun].
    pose proof (t_wait_keeps n (c_in s) t) as (K1 & K2 & _ & _). pose proof (t_wait_late n (c_in s) t) as K3.
    destruct (t_wait n (c_in s) t) as [[j|] t1]; cbn [fst snd] in *.
    + rewrite H1. cbn [tcrun timed_out]. right. split; [reflexivity|]. split; [|split; [exists (takeN j (c_in s)); symmetry; apply takeN_dropN|reflexivity]].
      specialize (K3 j eq_refl). cbn. destruct (t_rd t); [|discriminate K3]. cbn in *. apply N.leb_le in K3. apply N.leb_le. lia.
    + cbn [cexec]. destruct (fl_read n (c_in s) (ce_end E)) as [x i] eqn:FR. cbn [fst snd].
      specialize (IH x (H2 x) (t_pass delay t1) (c_set_in s i)).
      destruct (tcrun C E delay dl (k x) (t_pass delay t1) (c_set_in s i)) as [r [t' s']].
      destruct IH as [IH|IH]; [left; exact IH|right]. apply (Step (t_pass delay t1) (c_set_in s i)); [exact K1|reflexivity| |exact IH].
      exists (takeN n (c_in s)). pose proof (read_left n (c_in s) (ce_end E)) as RL. rewrite FR in RL. cbn [snd] in RL. subst i. symmetry. apply takeN_dropN.
  - destruct H as [H1 H2]. cbn [tcrun tcexec crun].
    pose proof (t_wait_keeps n (c_in s) t) as (K1 & K2 & _ & _). pose proof (t_wait_late n (c_in s) t) as K3.
    destruct (t_wait n (c_in s) t) as [[j|] t1]; cbn [fst snd] in *.
    + rewrite H1. cbn [tcrun timed_out]. right. split; [reflexivity|]. split; [|split; [exists (takeN j (c_in s)); symmetry; apply takeN_dropN|reflexivity]].
      specialize (K3 j eq_refl). cbn. destruct (t_rd t); [|discriminate K3]. cbn in *. apply N.leb_le in K3. apply N.leb_le. lia.
    + cbn [cexec]. destruct (fl_copy n (c_in s) (ce_end E)) as [x i] eqn:FR. cbn [fst snd].
      specialize (IH x (H2 x) (t_pass delay t1) (c_set_in s i)).
      destruct (tcrun C E delay dl (k x) (t_pass delay t1) (c_set_in s i)) as [r [t' s']].
      destruct IH as [IH|IH]; [left; exact IH|right]. apply (Step (t_pass delay t1) (c_set_in s i)); [exact K1|reflexivity| |exact IH].
      exists (takeN n (c_in s)). pose proof (copy_left n (c_in s) (ce_end E)) as RL. rewrite FR in RL. cbn [snd] in RL. subst i. symmetry. apply takeN_dropN.
  - assert (S1 : stillp (CDo (CSetBuf b) k)) by exact H. pose proof (still_same _ S1 t s) as X.
    destruct (tcrun C E delay dl (CDo (CSetBuf b) k) t s) as [r [t' s']]. left. exact X.
Qed.
End client.

Lemma stall_reply C E delay rto wto reply ses n t s :
  let '(r, (t', s')) := timed_read C E delay rto wto reply ses n t s in
  (r, s') = crun C E (client_read C (with_timeouts rto wto reply) ses n) s \/
  (r = Some (RdErr (RdParse EIO)) /\ past (if 0 <? rto then Some (t_now t + rto) else t_rd t) (t_now t') = true /\
   (exists l, c_in s = l ++ c_in s') /\
   c_buf s' = c_buf s /\ c_last s' = c_last s /\ c_ctr s' = c_ctr s /\ c_sent s' = c_sent s /\ c_seals s' = c_seals s).
Proof.
  unfold timed_read. rewrite read_split. cbn [with_timeouts co_rto]. destruct (0 <? rto) eqn:Hr.
  - cbn [cdo cbind tcrun tcexec crun cexec fst snd]. set (ok := ce_deadline E (c_step s)).
    set (t1 := t_pass delay (if ok then t_set_rd rto t else t)).
    destruct ok eqn:Eok; [|left; reflexivity].
    pose proof (read_same C E delay (t_set_rd rto) _ (areadp_read C ses n true) t1 (c_tick s)) as R.
    destruct (tcrun C E delay (t_set_rd rto) (read_rest C ses n true) t1 (c_tick s)) as [r [t' s']].
    destruct R as [R|(R1 & R2 & R3 & R4)]; [left; exact R|right]. split; [exact R1|].
    split; [unfold t1, t_set_rd in R2; rewrite Hr in R2; exact R2|]. split; [exact R3|]. rewrite R4. repeat split.
  - cbn [cbind]. pose proof (read_same C E delay (t_set_rd rto) _ (areadp_read C ses n true) t s) as R.
    destruct (tcrun C E delay (t_set_rd rto) (read_rest C ses n true) t s) as [r [t' s']].
    destruct R as [R|(R1 & R2 & R3 & R4)]; [left; exact R|right]. split; [exact R1|]. split; [exact R2|]. split; [exact R3|]. rewrite R4. repeat split.
Qed.
