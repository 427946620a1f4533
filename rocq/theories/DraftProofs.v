From Coq Require Import Sorting.Sorted.
From Verif Require Import Bytes BytesProofs Parser ParserProofs Crypto Kdf Wire WireProofs WireSeq WireExtra Keys KeysProofs
  Replay SpecReplay Server ServerSeq SpecServer ServerProofs ServerProps ServerProps2 ServerProps3
  Client ClientSeq SpecClient ClientProofs ClientProps SpecE2E E2EProofs ClientConc SpecClientConc SpecUsage Usage UsageProofs.

(** ** Reserved bits *)
Inductive psim {A B} (R : A -> B -> Prop) : parser A -> parser B -> Prop :=
| SimRet a b : R a b -> psim R (PRet a) (PRet b)
| SimFail e : psim R (PFail e) (PFail e)
| SimRead n k k' : (forall r, psim R (k r) (k' r)) -> psim R (PRead n k) (PRead n k')
| SimCopy n k k' : (forall r, psim R (k r) (k' r)) -> psim R (PCopy n k) (PCopy n k')
| SimAlloc n k k' : psim R k k' -> psim R (PAlloc n k) (PAlloc n k').

Lemma psim_run {A B} (R : A -> B -> Prop) p q : psim R p q -> forall s e,
  snd (run p s e) = snd (run q s e) /\
  match fst (run p s e), fst (run q s e) with
  | inl x, inl y => x = y
  | inr a, inr b => R a b
  | _, _ => False
  end.
Proof.
  induction 1 as [a b H|x|n k k' _ IH|n k k' _ IH|n k k' _ IH]; intros s e; cbn [run fst snd]; auto.
  - destruct (fl_read n s e). apply IH.
  - destruct (fl_copy n s e). apply IH.
Qed.

Ltac psim_tac :=
  repeat first
    [ progress cbn [pbind pread palloc pcopy1 parse_ecdh]
    | match goal with
      | |- psim _ (PRead _ _) (PRead _ _) => apply SimRead; intros ?
      | |- psim _ (PCopy _ _) (PCopy _ _) => apply SimCopy; intros ?
      | |- psim _ (PAlloc _ _) (PAlloc _ _) => apply SimAlloc
      | |- psim _ (PFail _) (PFail _) => apply SimFail
      | |- psim _ (PRet _) (PRet _) => apply SimRet
      | |- context [match ?x with _ => _ end] => destruct x
      end ].

Definition same_process (a b : process_req) : Prop :=
  pr_reply a = pr_reply b /\ pr_id a = pr_id b /\ pr_counter a = pr_counter b /\ pr_msg a = pr_msg b.
Definition same_perror (a b : error_resp) : Prop := er_code a = er_code b /\ er_msg a = er_msg b.
Definition same_presp (a b : process_resp) : Prop := ps_counter a = ps_counter b /\ ps_msg a = ps_msg b.
Definition same_sresp (a b : setup_resp) : Prop := ss_pub a = ss_pub b /\ ss_hash a = ss_hash b /\ ss_sig a = ss_sig b.
Definition same_fresp (a b : fetch_resp) : Prop := fk_key a = fk_key b /\ fk_alg a = fk_alg b.

Lemma psim_error rc rc' : psim same_perror (parse_error_resp rc) (parse_error_resp rc').
Proof. unfold parse_error_resp. psim_tac; split; reflexivity. Qed.
Lemma psim_presp rc rc' : psim same_presp (parse_process_resp rc) (parse_process_resp rc').
Proof. unfold parse_process_resp. psim_tac; split; reflexivity. Qed.
Lemma psim_fresp rc rc' : psim same_fresp (parse_fetch_resp rc) (parse_fetch_resp rc').
Proof. unfold parse_fetch_resp. psim_tac; split; reflexivity. Qed.
Lemma psim_sresp C rc rc' : psim same_sresp (parse_setup_resp C rc) (parse_setup_resp C rc').
Proof. unfold parse_setup_resp, parse_ecdh. psim_tac; repeat split; reflexivity. Qed.

Lemma crun_sim {A B D} (R : A -> B -> Prop) C E p q (f : perr + A -> cprog D) (g : perr + B -> cprog D) s :
  psim R p q -> (forall e, f (inl e) = g (inl e)) -> (forall a b, R a b -> f (inr a) = g (inr b)) ->
  crun C E (cbind (clift p) f) s = crun C E (cbind (clift q) g) s.
Proof.
  intros S H1 H2. rewrite !crun_bind, !crun_lift. destruct (psim_run R p q S (c_in s) (ce_end E)) as [E1 E2].
  rewrite E1. destruct (fst (run p (c_in s) (ce_end E))) as [x|a], (fst (run q (c_in s) (ce_end E))) as [y|b];
    try contradiction; [subst; rewrite H1; reflexivity|rewrite (H2 _ _ E2); reflexivity].
Qed.
Lemma srun_sim {A B D} (R : A -> B -> Prop) C E p q (f : perr + A -> sprog D) (g : perr + B -> sprog D) s :
  psim R p q -> (forall e, f (inl e) = g (inl e)) -> (forall a b, R a b -> f (inr a) = g (inr b)) ->
  srun C E (sbind (slift p) f) s = srun C E (sbind (slift q) g) s.
Proof.
  intros S H1 H2. rewrite !srun_bind, !srun_lift. destruct (psim_run R p q S (s_in s) (e_end E)) as [E1 E2].
  rewrite E1. destruct (fst (run p (s_in s) (e_end E))) as [x|a], (fst (run q (s_in s) (e_end E))) as [y|b];
    try contradiction; [subst; rewrite H1; reflexivity|rewrite (H2 _ _ E2); reflexivity].
Qed.

Lemma flag_bit (b : byte) : (N.shiftr (N.land (b2n b) 0xF0) 7 =? 1) = (128 <=? b2n b).
Proof. destruct b; reflexivity. Qed.
Lemma high_bit (b1 b2 : byte) : b2n b1 / 128 = b2n b2 / 128 -> (128 <=? b2n b1) = (128 <=? b2n b2).
Proof.
  intros H. pose proof (N.div_mod (b2n b1) 128 ltac:(discriminate)). pose proof (N.div_mod (b2n b2) 128 ltac:(discriminate)).
  pose proof (N.mod_lt (b2n b1) 128 ltac:(discriminate)). pose proof (N.mod_lt (b2n b2) 128 ltac:(discriminate)).
  destruct (N.leb_spec 128 (b2n b1)), (N.leb_spec 128 (b2n b2)); try reflexivity; nia.
Qed.

Lemma process_after_eq C a b : same_process a b -> process_after C a = process_after C b.
Proof. intros (H1 & H2 & H3 & H4). unfold process_after. rewrite H1, H2, H3, H4. reflexivity. Qed.

Lemma fl_copy_1 b i e : fl_copy 1 (b :: i) e = (([b], None), i).
Proof.
  unfold fl_copy. destruct (N.leb_spec 1 (lenN (b :: i))) as [H|H]; [|rewrite lenN_cons in H; lia].
  change (b :: i) with ([b] ++ i). rewrite takeN_app, dropN_app by reflexivity. reflexivity.
Qed.

Lemma process_parse_same rc b1 b2 i e : b2n b1 / 128 = b2n b2 / 128 ->
  snd (run (parse_process_req rc) (b1 :: i) e) = snd (run (parse_process_req rc) (b2 :: i) e) /\
  match fst (run (parse_process_req rc) (b1 :: i) e), fst (run (parse_process_req rc) (b2 :: i) e) with
  | inl x, inl y => x = y
  | inr a, inr b => same_process a b
  | _, _ => False
  end.
Proof.
  intros H. unfold parse_process_req, pcopy1. cbn [pbind run]. rewrite !fl_copy_1. cbn [pbind].
  apply psim_run. psim_tac. repeat split; cbn [pr_reply]. rewrite !flag_bit. apply high_bit, H.
Qed.

Lemma reserved_flags C E s b1 b2 i : e_quit E (s_step s) = false -> b2n b1 / 128 = b2n b2 / 128 ->
  srun C E (conn_body C) (set_in s (x13 :: b1 :: i)) = srun C E (conn_body C) (set_in s (x13 :: b2 :: i)).
Proof.
  intros Q H. unfold conn_body, one_request.
  assert (X : forall b, srun C E (dos q <- sdo SQuit; if q then SRet false else
      (dos r <- slift parse_req_common;
       match r with inl _ => SRet false | inr rc => if rq_version rc =? version1 then handle C rc else SRet false end))
      (set_in s (x13 :: b :: i)) =
    srun C E (process_handler C {| rq_version := 1; rq_action := 3 |}) (set_in (tick s) (b :: i))).
  { intros b. rewrite srun_bind. cbn [sdo srun sexec]. change (s_step (set_in s (x13 :: b :: i))) with (s_step s). rewrite Q.
    cbn iota. rewrite srun_bind, srun_lift. change (s_in (tick (set_in s (x13 :: b :: i)))) with (x13 :: b :: i).
    pose proof (req_common_rt {| rq_version := 1; rq_action := 3 |} (b :: i) (e_end E) ltac:(split; reflexivity)) as R.
    change (enc_req_common {| rq_version := 1; rq_action := 3 |} ++ b :: i) with (x13 :: b :: i) in R. rewrite R.
    reflexivity. }
  rewrite !X. unfold process_handler. rewrite !srun_bind, !srun_lift. cbn [s_in set_in].
  destruct (process_parse_same {| rq_version := 1; rq_action := 3 |} b1 b2 i (e_end E) H) as [E1 E2]. rewrite E1.
  destruct (fst (run _ (b1 :: i) _)) as [x|a], (fst (run _ (b2 :: i) _)) as [y|b]; try contradiction; [reflexivity|].
  rewrite (process_after_eq C a b E2). reflexivity.
Qed.

Lemma resp_fwd2 (b1 b2 : byte) i e : b2n b1 / 128 = b2n b2 / 128 ->
  exists rc1 rc2, run parse_resp_common (b1 :: i) e = (inr rc1, i) /\ run parse_resp_common (b2 :: i) e = (inr rc2, i) /\
    rs_success rc1 = rs_success rc2.
Proof.
  intros H. destruct (resp_fwd b1 i e) as (rc1 & R1 & S1 & _), (resp_fwd b2 i e) as (rc2 & R2 & S2 & _).
  exists rc1, rc2. split; [exact R1|]. split; [exact R2|]. rewrite S1, S2. apply high_bit, H.
Qed.

Lemma read_rest_eq C E n ses rc1 rc2 s : rs_success rc1 = rs_success rc2 ->
  let k rc :=
          if negb (rs_success rc) then
            doc er <- clift (parse_error_resp rc);
            match er with
            | inl e => CRet (RdErr (RdParse e))
            | inr er => CRet (RdErr (RdRemote (er_code er) (er_msg er)))
            end
          else
            doc r <- clift (parse_process_resp rc);
            match r with
            | inl e => CRet (RdErr (RdParse e))
            | inr r =>
                doc last <- cdo CGetLast;
                if negb (ps_counter r =? last) then CRet (RdErr RdCounter)
                else
                  match client_gcm C (cs_secret ses) with
                  | None => CRet (RdErr RdKey)
                  | Some key =>
                      match gcm_open C key (gcm_nonce dir_s2c (ps_counter r)) (ps_msg r) with
                      | None => CRet (RdErr RdDecrypt)
                      | Some message =>
                          doc buf <- cdo CGetBuf;
                          doc _ <- cdo (CSetBuf (buf ++ message));
                          doc buf <- cdo CGetBuf;
                          read_buffered buf n
                      end
                  end
            end in
  crun C E (k rc1) s = crun C E (k rc2) s.
Proof.
  intros H k. unfold k. rewrite H. destruct (rs_success rc2); cbn [negb].
  - apply (crun_sim same_presp); [apply psim_presp|reflexivity|]. intros a b [H1 H2]. rewrite H1, H2. reflexivity.
  - apply (crun_sim same_perror); [apply psim_error|reflexivity|]. intros a b [H1 H2]. rewrite H1, H2. reflexivity.
Qed.

Lemma reserved_read C E o ses n s b1 b2 i : c_works E -> c_buf s = [] -> b2n b1 / 128 = b2n b2 / 128 ->
  crun C E (client_read C o ses n) (c_set_in s (b1 :: i)) = crun C E (client_read C o ses n) (c_set_in s (b2 :: i)).
Proof.
  intros W Hb H. unfold client_read.
  assert (X : exists s1, c_buf s1 = [] /\ forall b (f : bool -> cprog rd_result),
    crun C E (cbind (if co_rto o then cdo CDeadline else CRet true) f) (c_set_in s (b :: i)) = crun C E (f true) (c_set_in s1 (b :: i))).
  { destruct (co_rto o).
    - exists (c_tick s). split; [exact Hb|]. intros b f. rewrite crun_do. cbn [cexec fst snd]. destruct W as [_ ->]. reflexivity.
    - exists s. auto. }
  destruct X as (s1 & Hb1 & X). rewrite !X. cbn [negb]. rewrite !crun_do. cbn [cexec fst snd].
  change (c_buf (c_set_in s1 (b1 :: i))) with (c_buf s1). change (c_buf (c_set_in s1 (b2 :: i))) with (c_buf s1). rewrite Hb1.
  change (0 <? lenN []) with false. cbv iota. rewrite !(crun_bind C E (clift parse_resp_common)), !crun_lift. cbn [c_in c_set_in].
  destruct (resp_fwd2 b1 b2 i (ce_end E) H) as (rc1 & rc2 & -> & -> & Hs). cbn [fst snd].
  exact (read_rest_eq C E n ses rc1 rc2 (c_set_in (c_set_in s1 (b1 :: i)) i) Hs).
Qed.

Lemma reserved_handshake C E host s b1 b2 i : b2n b1 / 128 = b2n b2 / 128 ->
  fst (crun C E (handshake C host) (c_set_in s (b1 :: i))) = fst (crun C E (handshake C host) (c_set_in s (b2 :: i))).
Proof.
  intros H. unfold handshake. destruct host as [host|]; [|reflexivity].
  rewrite !crun_do. cbn [cexec fst snd]. destruct (ce_fetch E host) as [pk|]; [|reflexivity].
  rewrite !crun_do. cbn [cexec fst snd]. destruct (ce_rand E) as [rnd|]; [|reflexivity]. cbv zeta.
  rewrite !crun_do. cbn [cexec fst snd]. destruct (ce_gen E) as [sk|]; [|reflexivity].
  set (q := enc_setup_req _). rewrite !crun_do. cbn [cexec].
  change (c_step (c_set_in s (b1 :: i))) with (c_step s). change (c_step (c_set_in s (b2 :: i))) with (c_step s).
  destruct (ce_write E (c_step s) q) as [n er]. cbv zeta. cbn [fst snd]. destruct er; [reflexivity|].
  destruct (negb (N.min n (lenN q) =? lenN q)); [reflexivity|].
  rewrite !(crun_bind C E (clift parse_resp_common)), !crun_lift. cbn [c_in c_set_in c_add_sent c_tick].
  destruct (resp_fwd2 b1 b2 i (ce_end E) H) as (rc1 & rc2 & -> & -> & Hs). cbn [fst snd].
  apply (f_equal fst). cbv beta iota. rewrite Hs. destruct (rs_success rc2); cbn [negb].
  - apply (crun_sim same_sresp); [apply psim_sresp|reflexivity|]. intros a b (H1 & H2 & H3). rewrite H1, H2, H3. reflexivity.
  - apply (crun_sim same_perror); [apply psim_error|reflexivity|]. intros a b [H1 H2]. rewrite H1, H2. reflexivity.
Qed.
Lemma reserved_fetch C E s b1 b2 i : b2n b1 / 128 = b2n b2 / 128 ->
  fst (crun C E (fetch_protocol C) (c_set_in s (b1 :: i))) = fst (crun C E (fetch_protocol C) (c_set_in s (b2 :: i))).
Proof.
  intros H. unfold fetch_protocol. set (q := enc_req_common fetch_key_request). rewrite !crun_do. cbn [cexec].
  change (c_step (c_set_in s (b1 :: i))) with (c_step s). change (c_step (c_set_in s (b2 :: i))) with (c_step s).
  destruct (ce_write E (c_step s) q) as [n er]. cbv zeta. cbn [fst snd]. destruct er; [reflexivity|].
  rewrite !(crun_bind C E (clift parse_resp_common)), !crun_lift. cbn [c_in c_set_in c_add_sent c_tick].
  destruct (resp_fwd2 b1 b2 i (ce_end E) H) as (rc1 & rc2 & -> & -> & Hs). cbn [fst snd].
  apply (f_equal fst). cbv beta iota. rewrite Hs. destruct (rs_success rc2); cbn [negb].
  - apply (crun_sim same_fresp); [apply psim_fresp|reflexivity|]. intros a b (H1 & H2). rewrite H1. reflexivity.
  - apply (crun_sim same_perror); [apply psim_error|reflexivity|]. intros a b [H1 H2]. rewrite H1, H2. reflexivity.
Qed.
