From Verif Require Import Bytes BytesProofs Parser ParserProofs Crypto Wire WireProofs WireSeq Replay Server ServerSeq SpecServer ServerProofs
  ServerProps ServerProps2 ServerProps3 ClientProofs SpecMalformed Toy ServerExamples.

Lemma run_pread_inr n i e b i' : run (pread n) i e = (inr b, i') -> i = b ++ i' /\ lenN b = n.
Proof.
  unfold pread. cbn [run]. destruct (fl_read n i e) as [[er|x] j] eqn:F; cbn [run]; [discriminate|].
  intros [= <- <-]. apply (fl_read_inr _ _ _ _ _ F).
Qed.
Lemma run_pcopy1_inr i e f i' : run pcopy1 i e = (inr f, i') -> i = f :: i'.
Proof.
  destruct i as [|b i]; [destruct (run_pcopy1_nil e) as (er & ->); discriminate|]. rewrite run_pcopy1. intros [= -> ->]. reflexivity.
Qed.
Lemma parsed_process_body rc i e m i' : run (parse_process_req rc) i e = (inr m, i') -> process_body i.
Proof.
  unfold parse_process_req. rewrite run_bind.
  destruct (run pcopy1 i e) as [[er|f] i1] eqn:E0; [discriminate|]. rewrite run_bind.
  destruct (run (pread 16) i1 e) as [[er|id] i2] eqn:E1; [discriminate|]. rewrite run_bind.
  destruct (run (pread 8) i2 e) as [[er|c] i3] eqn:E2; [discriminate|]. rewrite run_bind.
  destruct (run (pread 8) i3 e) as [[er|sz] i4] eqn:E3; [discriminate|].
  destruct (N.ltb_spec max_message_size (be_dec sz)) as [|Hm]; [discriminate|].
  rewrite run_bind, run_palloc. cbv iota. rewrite run_bind.
  destruct (run (pread (be_dec sz)) i4 e) as [[er|msg] i5] eqn:E4; [discriminate|]. intros _.
  apply run_pcopy1_inr in E0. apply run_pread_inr in E1 as [-> L1], E2 as [-> L2], E3 as [-> L3], E4 as [-> L4].
  exists f, id, c, msg, i5. rewrite L4, be_enc_dec_len by (apply lenN_length; exact L3).
  split; [exact E0|]. split; [apply lenN_length; exact L1|]. split; [apply lenN_length; exact L2|]. exact Hm.
Qed.
Lemma parsed_setup_body C rc i e m i' : run (parse_setup_req C rc) i e = (inr m, i') -> setup_body C i.
Proof.
  unfold parse_setup_req. rewrite run_bind.
  destruct (run (pread 16) i e) as [[er|id] i2] eqn:E1; [discriminate|]. rewrite run_bind.
  destruct (run (pread 4) i2 e) as [[er|sz] i3] eqn:E2; [discriminate|].
  destruct (N.ltb_spec max_key_size (be_dec sz)) as [|Hm]; [discriminate|]. rewrite run_bind, run_palloc. cbv iota. rewrite run_bind.
  destruct (run (pread (be_dec sz)) i3 e) as [[er|raw] i4] eqn:E4; [discriminate|]. rewrite run_bind.
  unfold parse_ecdh. destruct (pkix_parse C raw) as [[]|] eqn:P; cbn [run]; try discriminate. intros _.
  apply run_pread_inr in E1 as [-> L1], E2 as [-> L2], E4 as [-> L4].
  exists id, raw, k, i4. rewrite L4, be_enc_dec_len by (apply lenN_length; exact L2).
  split; [reflexivity|]. split; [apply lenN_length; exact L1|]. split; [exact Hm|exact P].
Qed.

Lemma malformed C E s b i : e_quit E (s_step s) = false -> s_in s = b :: i -> b2n b / 16 = 1 ->
  (b2n b mod 16 = 3 /\ ~ process_body i) \/ (b2n b mod 16 = 2 /\ ~ setup_body C i) ->
  let '(res, s') := srun C E (conn_body C) s in
  (exists t, responded s s' (RsError 1 t)) /\ no_calls s s' /\ same_sessions C s s' /\ (writes_all E -> res = Some true).
Proof.
  intros Hq Hin Hv Hb. destruct (conn_body_hdr C E s b i Hq Hin) as (rc & Hrc & Eb & ->).
  assert (Va : rq_version rc = 1 /\ rq_action rc = b2n b mod 16).
  { destruct Hrc as [R1 R2]. rewrite Eb in Hv |- *. rewrite N.div_add_l, (N.div_small (rq_action rc)) in Hv by lia.
    split; [lia|]. rewrite N.add_comm, N.mod_add by lia. symmetry. apply N.mod_small. exact R2. }
  destruct Va as [V A]. rewrite V. change (1 =? version1) with true. cbv iota. unfold handle. rewrite A.
  destruct Hb as [[-> Hb]|[-> Hb]].
  - cbn -[process_handler]. unfold process_handler. rewrite srun_bind, srun_lift. cbn [set_in s_in].
    destruct (run (parse_process_req rc) i (e_end E)) as [[er|m] i'] eqn:R; [|destruct (Hb (parsed_process_body _ _ _ _ _ R))].
    cbn [fst snd]. match goal with |- context [srun C E _ ?x] => destruct (reply_error_run C E code_malformed msg_parse x) as (n & ok & -> & _ & _ & W) end.
    split; [exists msg_parse; apply responded_add; reflexivity|]. repeat split. intros H. rewrite (W H). reflexivity.
  - cbn -[setup_handler]. unfold setup_handler. rewrite srun_bind, srun_lift. cbn [set_in s_in].
    destruct (run (parse_setup_req C rc) i (e_end E)) as [[er|m] i'] eqn:R; [|destruct (Hb (parsed_setup_body _ _ _ _ _ _ R))].
    cbn [fst snd]. match goal with |- context [srun C E _ ?x] => destruct (reply_error_run C E code_malformed msg_parse x) as (n & ok & -> & _ & _ & W) end.
    split; [exists msg_parse; apply responded_add; reflexivity|]. repeat split. intros H. rewrite (W H). reflexivity.
Qed.

(** ** For the example *)
Lemma app_inj_l {A} : forall (a b c d : list A), length a = length b -> a ++ c = b ++ d -> a = b /\ c = d.
Proof.
  induction a as [|x a IH]; intros [|y b] c d H E; cbn in *; try discriminate; [auto|].
  injection E as -> E. injection H as H. destruct (IH b c d H E) as [-> ->]. auto.
Qed.
Lemma malformed_examples :
  ~ process_body (x00 :: repeat x07 16 ++ be_enc 8 1 ++ be_enc 8 (2 ^ 30 + 1) ++ [x01; x02]) /\
  ~ setup_body toy (repeat x07 16 ++ be_enc 4 44 ++ [x30]) /\
  fst (srun toy ex_E (conn_body toy) (ex_s (x13 :: x00 :: repeat x07 16 ++ be_enc 8 1 ++ be_enc 8 (2 ^ 30 + 1) ++ [x01; x02]))) = Some true /\
  fst (srun toy ex_E (conn_body toy) (ex_s (x12 :: repeat x07 16 ++ be_enc 4 44 ++ [x30]))) = Some true.
Proof.
  split; [|split; [|split; vm_compute; reflexivity]].
  - intros (f & id & c & msg & rest & E & L1 & L2 & L3). apply (f_equal (@tl byte)) in E. change (repeat x07 16 ++ be_enc 8 1 ++ be_enc 8 (2 ^ 30 + 1) ++ [x01; x02] = id ++ c ++ be_enc 8 (lenN msg) ++ msg ++ rest) in E.
    apply app_inj_l in E as [_ E]; [|rewrite L1; reflexivity]. apply app_inj_l in E as [_ E]; [|rewrite L2, be_enc_length; reflexivity].
    apply app_inj_l in E as [E _]; [|rewrite !be_enc_length; reflexivity].
    apply (f_equal be_dec) in E. rewrite !be_dec_enc_small in E by (cbn; lia). lia.
  - intros (id & raw & pub & rest & E & L1 & L2 & _).
    apply app_inj_l in E as [_ E]; [|rewrite L1; reflexivity]. apply app_inj_l in E as [E1 E2]; [|rewrite !be_enc_length; reflexivity].
    apply (f_equal be_dec) in E1. rewrite !be_dec_enc_small in E1 by (cbn; lia).
    apply (f_equal lenN) in E2. rewrite lenN_app in E2. cbn in E2. lia.
Qed.
