(** Deadlines on the client's side: programs that set none themselves. *)
From Verif Require Import Bytes BytesProofs Parser Crypto Wire Replay Server ServerSeq Keys Client ClientSeq Timed SpecTimed TimedProofs.

Fixpoint nodl {A} (p : cprog A) : Prop :=
  match p with
  | CRet _ | CPanic => True
  | CDo e k => match e with CDeadline => False | _ => True end /\ forall r, nodl (k r)
  end.
Lemma nodl_bind {A B} (p : cprog A) (f : A -> cprog B) : nodl p -> (forall a, nodl (f a)) -> nodl (cbind p f).
Proof. intros H F. induction p as [a| |R e k IH]; cbn [cbind nodl] in *; auto. destruct H as [H1 H2]. split; auto. Qed.
Lemma nodl_lift {A} (p : parser A) : nodl (clift p).
Proof. induction p; cbn; auto. Qed.

Section client.
Variables (C : Crypto) (E : cenv) (delay : nat -> N).

Lemma tcexec_keeps dl {R} (e : ceff R) t s : match e with CDeadline => False | _ => True end ->
  let t' := fst (snd (tcexec C E delay dl e t s)) in
  t_rd t' = t_rd t /\ t_wd t' = t_wd t /\ t_n t' = S (t_n t) /\ t_now t <= t_now t' /\
  (forall d, t_rd t = Some d -> t_now t' <= N.max (t_now t) d + delay (t_n t)).
Proof.
  intros ND.
  assert (G : forall t1, t_rd t1 = t_rd t /\ t_wd t1 = t_wd t /\ t_n t1 = t_n t /\ t_now t <= t_now t1 ->
    (forall d, t_rd t = Some d -> t_now t1 <= N.max (t_now t) d) ->
    t_rd (t_pass delay t1) = t_rd t /\ t_wd (t_pass delay t1) = t_wd t /\ t_n (t_pass delay t1) = S (t_n t) /\ t_now t <= t_now (t_pass delay t1) /\
    (forall d, t_rd t = Some d -> t_now (t_pass delay t1) <= N.max (t_now t) d + delay (t_n t))).
  { intros t1 (A & B & D & F) H. cbn. rewrite A, B, D. repeat split; auto; [lia|]. intros d X. specialize (H d X). lia. }
  destruct e; unfold tcexec; try contradiction;
    try (match goal with |- context [t_wait ?n ?i ?t] => generalize (t_wait_keeps n i t) (t_wait_bound n i t); destruct (t_wait n i t) as [[k|] t1] end;
         intros A B; cbn [fst snd] in *; (apply G; [exact A|exact B])).
  all: cbn [fst snd]; repeat match goal with |- context [if ?b then _ else _] => destruct b end; cbn [fst snd]; apply G; intros; repeat split; lia.
Qed.

Lemma tcexec_same dl {R} (e : ceff R) t s : match e with CDeadline => False | _ => True end ->
  let t' := fst (snd (tcexec C E delay dl e t s)) in
  past (t_rd t) (t_now t') = false -> past (t_wd t) (t_now t') = false ->
  cexec C E e s = (fst (tcexec C E delay dl e t s), snd (snd (tcexec C E delay dl e t s))).
Proof.
  intros ND. destruct e; unfold tcexec; try contradiction;
    try (match goal with |- context [t_wait ?n ?i ?t] => generalize (t_wait_late n i t); destruct (t_wait n i t) as [[k|] t1] end;
         cbn [fst snd]; intros B X _; [exfalso; rewrite (past_mono _ (t_now t1) _ (N.le_add_r _ _) X) in B; discriminate (B k eq_refl)|apply surjective_pairing]; fail).
  all: try (cbn [fst snd]; intros; apply surjective_pairing; fail).
  cbn [fst snd]. intros X Y. destruct (past (t_wd t) (t_now t)) eqn:P; cbn [fst snd] in *; [|apply surjective_pairing].
  rewrite (past_mono _ (t_now t) _ (N.le_add_r _ _) Y) in P. discriminate P.
Qed.

Lemma tcrun_keeps dl {A} (p : cprog A) : nodl p -> forall t s, let t' := fst (snd (tcrun C E delay dl p t s)) in
  t_rd t' = t_rd t /\ t_wd t' = t_wd t /\ t_now t <= t_now t' /\
  exists k, t_n t' = (t_n t + k)%nat /\
    forall d, t_rd t = Some d -> t_now t' <= N.max (t_now t) d + spent delay (t_n t) k.
Proof.
  induction p as [a| |R e k IH]; intros ND t s; cbn [tcrun].
  - cbn. repeat split; try lia. exists 0%nat. split; [lia|]. cbn. lia.
  - cbn. repeat split; try lia. exists 0%nat. split; [lia|]. cbn. lia.
  - destruct ND as [ND1 ND2]. pose proof (tcexec_keeps dl e t s ND1) as K.
    destruct (tcexec C E delay dl e t s) as [r [t1 s1]]. cbn [fst snd] in K. destruct K as (K1 & K2 & K3 & K4 & K5).
    specialize (IH r (ND2 r) t1 s1). cbn zeta in *. destruct IH as (H1 & H2 & H3 & n & H4 & H5). rewrite K1 in *. rewrite K2 in *.
    repeat split; auto; [lia|]. exists (S n). split; [lia|]. intros d X. specialize (K5 d X). specialize (H5 d X).
    cbn [spent]. rewrite K3 in H5. lia.
Qed.

Lemma tcrun_same dl {A} (p : cprog A) : nodl p -> forall t s, let t' := fst (snd (tcrun C E delay dl p t s)) in
  past (t_rd t) (t_now t') = false -> past (t_wd t) (t_now t') = false ->
  crun C E p s = (fst (tcrun C E delay dl p t s), snd (snd (tcrun C E delay dl p t s))).
Proof.
  induction p as [a| |R e k IH]; intros ND t s; cbn [tcrun]; try reflexivity. cbn zeta. intros X Y. destruct ND as [ND1 ND2].
  pose proof (tcexec_keeps dl e t s ND1) as K. pose proof (tcexec_same dl e t s ND1) as Sm.
  destruct (tcexec C E delay dl e t s) as [r [t1 s1]] eqn:Ex. cbn [fst snd] in *. destruct K as (K1 & K2 & K3 & K4 & _).
  pose proof (tcrun_keeps dl (k r) (ND2 r) t1 s1) as (H1 & H2 & H3 & _). cbn [crun].
  rewrite (Sm (past_mono _ _ _ H3 X) (past_mono _ _ _ H3 Y)). apply IH; rewrite ?K1, ?K2; auto.
Qed.
End client.

Definition read_rest (C : Crypto) (ses : csession) (n : N) (ok : bool) : cprog rd_result :=
  if negb ok then CRet (RdErr RdDeadline)
  else
    doc buf <- cdo CGetBuf;
    if 0 <? lenN buf then read_buffered buf n
    else
      doc rc <- clift parse_resp_common;
      match rc with
      | inl e => CRet (RdErr (RdParse e))
      | inr rc =>
          if negb (rs_success rc) then
            doc er <- clift (parse_error_resp rc);
            match er with
            | inl e => CRet (RdErr (RdParse e))
            | inr er => CRet (RdErr (RdRemote (er_code er) (er_msg er)))
            end
          else
            doc r <- clift (parse_process_resp rc);
            match r with
            | inl e => CRet (RdErr (RdParse e))
            | inr r =>
                doc last <- cdo CGetLast;
                if negb (ps_counter r =? last) then CRet (RdErr RdCounter)
                else
                  match client_gcm C (cs_secret ses) with
                  | None => CRet (RdErr RdKey)
                  | Some key =>
                      match gcm_open C key (gcm_nonce dir_s2c (ps_counter r)) (ps_msg r) with
                      | None => CRet (RdErr RdDecrypt)
                      | Some message =>
                          doc buf <- cdo CGetBuf;
                          doc _ <- cdo (CSetBuf (buf ++ message));
                          doc buf <- cdo CGetBuf;
                          read_buffered buf n
                      end
                  end
            end
      end.
Lemma read_split C o ses n : client_read C o ses n = cbind (if co_rto o then cdo CDeadline else CRet true) (read_rest C ses n).
Proof. reflexivity. Qed.
Lemma nodl_buffered b n : nodl (read_buffered b n).
Proof. unfold read_buffered. destruct (buffer_read b n) as [[d r]|]; cbn; auto. Qed.
Lemma nodl_read C ses n ok : nodl (read_rest C ses n ok).
Proof.
  unfold read_rest. destruct ok; cbn [negb]; [|exact I]. apply nodl_bind; [cbn; auto|]. intros buf.
  destruct (0 <? lenN buf); [apply nodl_buffered|]. apply nodl_bind; [apply nodl_lift|]. intros [e|rc]; [exact I|].
  destruct (negb (rs_success rc)).
  - apply nodl_bind; [apply nodl_lift|]. intros [e|er]; exact I.
  - apply nodl_bind; [apply nodl_lift|]. intros [e|r]; [exact I|]. apply nodl_bind; [cbn; auto|]. intros l.
    destruct (negb _); [exact I|]. destruct (client_gcm C _); [|exact I]. destruct (gcm_open _ _ _ _); [|exact I].
    apply nodl_bind; [cbn; auto|]. intros b1. apply nodl_bind; [cbn; auto|]. intros _. apply nodl_bind; [cbn; auto|].
    intros b2. apply nodl_buffered.
Qed.

(** Read returns within the read timeout. *)
Lemma read_bounded C E delay rto wto reply ses n t s : 0 < rto ->
  exists k, t_now (fst (snd (timed_read C E delay rto wto reply ses n t s))) <= t_now t + rto + spent delay (t_n t) k /\
    t_n (fst (snd (timed_read C E delay rto wto reply ses n t s))) = (t_n t + k)%nat.
Proof.
  intros P. unfold timed_read. rewrite read_split. unfold with_timeouts. cbn [co_rto].
  destruct (N.ltb_spec 0 rto) as [L|]; [|lia]. unfold cdo. cbn [cbind tcrun tcexec cexec fst snd].
  destruct (ce_deadline E (c_step s)).
  - set (t1 := t_pass delay (t_set_rd rto t)).
    assert (H1 : t_rd t1 = Some (t_now t + rto) /\ t_now t1 = t_now t + delay (t_n t) /\ t_n t1 = S (t_n t))
      by (unfold t1, t_set_rd; rewrite (proj2 (N.ltb_lt 0 rto) L); auto).
    destruct H1 as (R1 & N1 & M1).
    destruct (tcrun_keeps C E delay (t_set_rd rto) _ (nodl_read C ses n true) t1 (c_tick s)) as (_ & _ & _ & k & K1 & K2).
    specialize (K2 _ R1). exists (S k). cbn [spent]. rewrite M1, N1 in *. split; [lia|]. rewrite K1. lia.
  - exists 1%nat. cbn. split; lia.
Qed.
(** Without a read timeout it keeps to the deadline that is set. *)
Lemma read_keeps_deadline C E delay wto reply ses n t s d : t_rd t = Some d ->
  exists k, t_now (fst (snd (timed_read C E delay 0 wto reply ses n t s))) <= N.max (t_now t) d + spent delay (t_n t) k /\
    t_n (fst (snd (timed_read C E delay 0 wto reply ses n t s))) = (t_n t + k)%nat.
Proof.
  intros R. unfold timed_read. rewrite read_split. cbn [with_timeouts co_rto]. change (0 <? 0) with false.
  cbn [cbind]. destruct (tcrun_keeps C E delay (t_set_rd 0) _ (nodl_read C ses n true) t s) as (_ & _ & _ & k & K1 & K2).
  exists k. split; [apply K2, R|exact K1].
Qed.
(** And a Write after the write deadline sends nothing. *)
Lemma write_keeps_deadline C E delay rto reply ses p t s d : t_wd t = Some d -> d <= t_now t ->
  let '(r, (_, s')) := timed_write C E delay rto 0 reply ses p t s in
  (r = Some (WrConn 0 true) \/ r = Some WrExhausted \/ r = Some WrKey) /\
  map (fun x => takeN (snd x) (fst x)) (c_sent s') = map (fun x => takeN (snd x) (fst x)) (c_sent s) ++
    (match r with Some (WrConn _ _) => [[]] | _ => [] end).
Proof.
  intros W L. unfold timed_write, client_write, with_timeouts. cbn [co_wto co_reply]. change (0 <? 0) with false. cbn [cbind tcrun negb].
  destruct (client_gcm C (cs_secret ses)) as [key|]; [|cbn; rewrite app_nil_r; auto].
  unfold cdo. cbn [cbind tcrun tcexec cexec fst snd]. destruct (_ =? 0); [cbn; rewrite app_nil_r; auto|].
  cbn [cbind tcrun tcexec cexec fst snd].
  assert (P : past (Some d) (t_now (t_pass delay (t_pass delay (t_pass delay t)))) = true) by (cbn; apply N.leb_le; lia).
  cbn [t_wd t_pass] in *. rewrite W. rewrite P. cbn [fst snd tcrun c_add_sent c_sent c_tick c_add_seal c_set_last c_set_ctr].
  split; [auto|]. rewrite map_app. reflexivity.
Qed.

(** A test before the deadlines left on the connection. *)
Lemma borrow_in_time C E delay dl t s b rest a arr : c_in s = b :: rest -> t_arr t = a :: arr ->
  (forall i x, ce_write E i x = (lenN x, false)) ->
  past (t_wd t) (t_now t) = false -> past (t_rd t) (N.max (t_now t + delay (t_n t)) a) = false ->
  fst (tcrun C E delay dl test_on_borrow t s) = Some (N.shiftr (b2n b) 7 =? 1) /\
  c_in (snd (snd (tcrun C E delay dl test_on_borrow t s))) = rest /\
  c_sent (snd (snd (tcrun C E delay dl test_on_borrow t s))) = c_sent s ++ [([x11], 1)].
Proof.
  intros I A W Pw Pr. unfold test_on_borrow, cdo. cbn [cbind tcrun tcexec]. rewrite Pw. cbn [cexec]. rewrite W. cbn [fst snd].
  change (enc_req_common hello_request) with [x11]. rewrite N.min_id, N.eqb_refl. cbn [orb negb].
  unfold parse_resp_common, pcopy1. cbn [pbind clift cbind tcrun tcexec cexec].
  unfold t_wait. change (1 =? 0) with false. cbv iota. cbn [t_rd t_pass t_now t_arr c_in c_add_sent c_tick]. rewrite I.
  assert (T1 : 1 <=? lenN (b :: rest) = true) by (apply N.leb_le; unfold lenN; cbn [length]; lia).
  assert (T2 : takeN 1 (b :: rest) = [b]) by (apply (takeN_app [b] rest); reflexivity).
  assert (T3 : dropN 1 (b :: rest) = rest) by (apply (dropN_app [b] rest); reflexivity).
  assert (T4 : takeN 1 (a :: arr) = [a]) by (apply (takeN_app [a] arr); reflexivity).
  unfold due. cbn [t_arr t_pass]. rewrite T1, A, T4. cbn [latest fold_right]. rewrite N.max_0_r.
  assert (X : match t_rd t with
    | Some d => if N.max (t_now t + delay (t_n t)) a <? d then True else False
    | None => True end).
  { destruct (t_rd t) as [d|]; [|exact Logic.I]. cbn in Pr. apply N.leb_gt in Pr. apply N.ltb_lt in Pr. rewrite Pr. exact Logic.I. }
  unfold fl_copy. rewrite T1, T2, T3.
  destruct (t_rd t) as [d|]; [destruct (_ <? d); [|contradiction]|];
    cbn [fst snd pbind clift cbind tcrun rs_success c_set_in c_in c_sent c_add_sent c_tick]; repeat split.
Qed.
Lemma idle_in_time C E delay rto wto reply ses p t s : 0 < wto -> ce_deadline E (c_step s) = true ->
  let t1 := fst (snd (timed_write C E delay rto wto reply ses p t s)) in
  forall E' dl t2 s2 b rest a arr, t_wd t2 = t_wd t1 -> t_now t2 < t_now t + wto -> c_in s2 = b :: rest -> t_arr t2 = a :: arr ->
    (forall i x, ce_write E' i x = (lenN x, false)) -> past (t_rd t2) (N.max (t_now t2 + delay (t_n t2)) a) = false ->
    let after := tcrun C E' delay dl test_on_borrow t2 s2 in
    fst after = Some (N.shiftr (b2n b) 7 =? 1) /\ c_in (snd (snd after)) = rest /\ c_sent (snd (snd after)) = c_sent s2 ++ [([x11], 1)].
Proof.
  intros P D t1 E' dl t2 s2 b rest a arr W L I A Wr Pr. unfold t1 in W. rewrite (write_sets_deadline C E delay rto wto reply ses p t s P D) in W.
  apply (borrow_in_time C E' delay dl t2 s2 b rest a arr I A Wr); [|exact Pr]. rewrite W. cbn. apply N.leb_gt. exact L.
Qed.
