(** Proofs about the wire codecs. *)
From Verif Require Import Bytes BytesProofs Parser ParserProofs Crypto Wire SpecLayout.

(** ** Finite sweeps over octets *)
Lemma sweep (P : N -> bool) (n : nat) :
  forallb P (map N.of_nat (seq 0 n)) = true -> forall x, x < N.of_nat n -> P x = true.
Proof.
  intros H x Hx. rewrite forallb_forall in H. apply H.
  apply in_map_iff. exists (N.to_nat x). split; [lia|]. apply in_seq. lia.
Qed.
Lemma sweep2 (P : N -> N -> bool) (n m : nat) :
  forallb (fun x => forallb (P x) (map N.of_nat (seq 0 m))) (map N.of_nat (seq 0 n)) = true ->
  forall x y, x < N.of_nat n -> y < N.of_nat m -> P x y = true.
Proof.
  intros H x y Hx Hy. apply (sweep (P x) m); [|exact Hy].
  exact (sweep (fun x => forallb (P x) (map N.of_nat (seq 0 m))) n H x Hx).
Qed.

Lemma hdr_bits v a : v < 16 -> a < 16 ->
  let b := b2n (n2b (N.lor ((N.shiftl v 4) mod 256) a)) in
  N.shiftr (N.land b 0xF0) 4 = v /\ N.land b 0x0F = a.
Proof.
  intros Hv Ha. cbv zeta.
  pose proof (sweep2 (fun v a =>
    let b := b2n (n2b (N.lor ((N.shiftl v 4) mod 256) a)) in
    (N.shiftr (N.land b 0xF0) 4 =? v) && (N.land b 0x0F =? a)) 16 16) as H.
  specialize (H ltac:(vm_compute; reflexivity) v a Hv Ha).
  cbv beta zeta in H. apply andb_true_iff in H as [H1 H2]. apply N.eqb_eq in H1, H2. auto.
Qed.

Lemma hdr_bits_inv (b : byte) :
  n2b (N.lor ((N.shiftl (N.shiftr (N.land (b2n b) 0xF0) 4) 4) mod 256) (N.land (b2n b) 0x0F)) = b
  /\ N.shiftr (N.land (b2n b) 0xF0) 4 < 16 /\ N.land (b2n b) 0x0F < 16.
Proof. destruct b; vm_compute; repeat split. Qed.

Lemma resp_bits_succ r : r < 128 ->
  let b := b2n (n2b (N.lor ((N.shiftl 1 7) mod 256) r)) in
  (N.shiftr b 7 =? 1) = true /\ N.shiftr ((N.shiftl b 1) mod 256) 1 = r.
Proof.
  intros Hr. cbv zeta.
  pose proof (sweep (fun r => let b := b2n (n2b (N.lor ((N.shiftl 1 7) mod 256) r)) in
    (N.shiftr b 7 =? 1) && (N.shiftr ((N.shiftl b 1) mod 256) 1 =? r)) 128
    ltac:(vm_compute; reflexivity) r Hr) as H.
  cbv beta zeta in H. apply andb_true_iff in H as [H1 H2]. apply N.eqb_eq in H2. auto.
Qed.
Lemma resp_bits_fail r : r < 128 ->
  let b := b2n (n2b (N.lor 0 r)) in
  (N.shiftr b 7 =? 1) = false /\ N.shiftr ((N.shiftl b 1) mod 256) 1 = r.
Proof.
  intros Hr. cbv zeta.
  pose proof (sweep (fun r => let b := b2n (n2b (N.lor 0 r)) in
    negb (N.shiftr b 7 =? 1) && (N.shiftr ((N.shiftl b 1) mod 256) 1 =? r)) 128
    ltac:(vm_compute; reflexivity) r Hr) as H.
  cbv beta zeta in H. apply andb_true_iff in H as [H1 H2]. apply negb_true_iff in H1.
  apply N.eqb_eq in H2. auto.
Qed.
Lemma proc_bits (reply : bool) r : r < 128 ->
  let fl := N.shiftr ((N.shiftl r 1) mod 256) 1 in
  let fl := if reply then N.lor fl (N.shiftl 1 7) else fl in
  let b := b2n (n2b fl) in
  (N.shiftr (N.land b 0xF0) 7 =? 1) = reply /\
  N.land (N.shiftr ((N.shiftl b 1) mod 256) 1) 0xFF = r.
Proof.
  intros Hr. cbv zeta.
  pose proof (sweep (fun r => forallb (fun reply : bool =>
      let fl := N.shiftr ((N.shiftl r 1) mod 256) 1 in
      let fl := if reply then N.lor fl (N.shiftl 1 7) else fl in
      let b := b2n (n2b fl) in
      Bool.eqb (N.shiftr (N.land b 0xF0) 7 =? 1) reply &&
      (N.land (N.shiftr ((N.shiftl b 1) mod 256) 1) 0xFF =? r)) [true; false]) 128
    ltac:(vm_compute; reflexivity) r Hr) as H.
  cbv beta in H. rewrite forallb_forall in H.
  specialize (H reply ltac:(destruct reply; cbn; auto)). cbv beta zeta in H.
  apply andb_true_iff in H as [H1 H2]. apply eqb_prop in H1. apply N.eqb_eq in H2. auto.
Qed.

(** ** One-octet fields *)
Lemma run_pcopy1 b s e : run pcopy1 (b :: s) e = (inr b, s).
Proof.
  unfold pcopy1; cbn [run].
  change (b :: s) with ([b] ++ s). rewrite (fl_copy_app 1 [b] s e eq_refl). reflexivity.
Qed.
Lemma run_pcopy1_nil e : exists er, run pcopy1 [] e = (inl er, []).
Proof. destruct e; eexists; reflexivity. Qed.
Lemma strict_pcopy1 : strict pcopy1.
Proof.
  unfold pcopy1; cbn [strict]; split.
  - intros b [e|] H; [exists e; reflexivity|].
    destruct H as [H|H]; [congruence|]. destruct b as [|x [|y b]].
    + exists EShort; reflexivity.
    + exfalso; apply H; reflexivity.
    + exists ESize; reflexivity.
  - intros [|x [|y b]] H; cbn; auto.
Qed.

Definition req_common_ok (r : req_common) : Prop := rq_version r < 16 /\ rq_action r < 16.
Definition resp_common_ok (r : resp_common) : Prop := rs_reserved r < 128.

Lemma req_common_rt r s e : req_common_ok r ->
  run parse_req_common (enc_req_common r ++ s) e = (inr r, s).
Proof.
  intros [Hv Ha]. unfold parse_req_common, enc_req_common. rewrite run_bind.
  cbn [app]. rewrite run_pcopy1. cbn [run]. destruct (hdr_bits _ _ Hv Ha) as [E1 E2].
  cbv zeta in E1, E2. rewrite E1, E2. destruct r; reflexivity.
Qed.

Lemma req_common_octet b s e : exists r,
  run parse_req_common (b :: s) e = (inr r, s) /\ enc_req_common r = [b] /\ req_common_ok r /\
  b2n b = rq_version r * 16 + rq_action r.
Proof.
  unfold parse_req_common. rewrite run_bind, run_pcopy1. cbn [run].
  eexists; split; [reflexivity|]. unfold enc_req_common, req_common_ok; cbn [rq_version rq_action].
  destruct (hdr_bits_inv b) as (E & H1 & H2). rewrite E. repeat split; auto.
  clear. destruct b; vm_compute; reflexivity.
Qed.

Lemma resp_common_rt r s e : resp_common_ok r ->
  run parse_resp_common (enc_resp_common r ++ s) e = (inr r, s).
Proof.
  intros H. unfold parse_resp_common, enc_resp_common. rewrite run_bind.
  unfold resp_common_ok in H. destruct r as [[|] rv]; cbn [rs_success rs_reserved app] in *.
  - rewrite run_pcopy1. cbn [run]. destruct (resp_bits_succ _ H) as [E1 E2].
    cbv zeta in E1, E2. rewrite E1, E2. reflexivity.
  - rewrite run_pcopy1. cbn [run]. destruct (resp_bits_fail _ H) as [E1 E2].
    cbv zeta in E1, E2. rewrite E1, E2. reflexivity.
Qed.

(** ** Round trips *)
Lemma pkix_parse_x25519 C k : length k = 32%nat -> pkix_parse C (pkix_x25519 k) = Some (PkX25519 k).
Proof.
  intros H. unfold pkix_parse, pkix_x25519. rewrite app_length, H. cbn [length x25519_prefix Nat.add Nat.eqb].
  change 12%nat with (length x25519_prefix). rewrite firstn_app_exact, skipn_app_exact, bytes_eqb_refl.
  reflexivity.
Qed.
Lemma pkix_x25519_len k : length k = 32%nat -> lenN (pkix_x25519 k) = 44.
Proof. intros H. unfold pkix_x25519, lenN. rewrite app_length, H. reflexivity. Qed.
Lemma pkix_x25519_inj a b : pkix_x25519 a = pkix_x25519 b -> a = b.
Proof. unfold pkix_x25519. apply app_inv_head. Qed.

Definition parse_full_setup_req C := dop rc <- parse_req_common; parse_setup_req C rc.
Definition parse_full_process_req := dop rc <- parse_req_common; parse_process_req rc.
Definition parse_full_setup_resp C := dop rc <- parse_resp_common; parse_setup_resp C rc.
Definition parse_full_process_resp := dop rc <- parse_resp_common; parse_process_resp rc.
Definition parse_full_fetch_resp := dop rc <- parse_resp_common; parse_fetch_resp rc.
Definition parse_full_error_resp := dop rc <- parse_resp_common; parse_error_resp rc.

Ltac rd := rewrite run_bind, run_pread by (rewrite ?be_enc_lenN; first [assumption|reflexivity|unfold lenN; lia]).

Record setup_req_ok (m : setup_req) : Prop := {
  sro_c : req_common_ok (sr_common m);
  sro_id : length (sr_id m) = 16%nat;
  sro_pub : length (sr_pub m) = 32%nat }.

Lemma mod32_44 : 44 mod two32 = 44. Proof. reflexivity. Qed.
Lemma dec44 : be_dec (be_enc 4 44) = 44. Proof. reflexivity. Qed.

Lemma setup_req_rt_body C m s e : setup_req_ok m ->
  run (parse_setup_req C (sr_common m))
      (sr_id m ++ be_enc 4 (lenN (pkix_x25519 (sr_pub m)) mod two32) ++ pkix_x25519 (sr_pub m) ++ s) e
  = (inr m, s).
Proof.
  intros [Hc Hid Hp]. unfold parse_setup_req. rd. rd.
  rewrite (pkix_x25519_len _ Hp), mod32_44, dec44.
  change (max_key_size <? 44) with false. cbn iota.
  rewrite run_bind, run_palloc.
  rewrite run_bind, run_pread by (apply pkix_x25519_len, Hp).
  rewrite run_bind. unfold parse_ecdh. rewrite (pkix_parse_x25519 C _ Hp). cbn [run].
  destruct m; reflexivity.
Qed.
Lemma setup_req_rt C m s e : setup_req_ok m ->
  run (parse_full_setup_req C) (enc_setup_req m ++ s) e = (inr m, s).
Proof.
  intros H. unfold parse_full_setup_req, enc_setup_req. rewrite run_bind, <- app_assoc, req_common_rt by apply H.
  rewrite <- !app_assoc. apply setup_req_rt_body, H.
Qed.

Record setup_resp_ok (m : setup_resp) : Prop := {
  sso_c : resp_common_ok (ss_common m);
  sso_pub : length (ss_pub m) = 32%nat;
  sso_hash : ss_hash m < 256;
  sso_sig : lenN (ss_sig m) <= max_signature_size }.

Lemma max_sig_lt32 n : n <= max_signature_size -> n < two32.
Proof. unfold max_signature_size, two32. lia. Qed.

Lemma setup_resp_rt_body C m s e : setup_resp_ok m -> ss_sig m <> [] ->
  run (parse_setup_resp C (ss_common m))
      (be_enc 4 (lenN (pkix_x25519 (ss_pub m)) mod two32) ++ pkix_x25519 (ss_pub m) ++
       ((if 0 <? lenN (ss_sig m) then
           [n2b (ss_hash m)] ++ be_enc 4 (lenN (ss_sig m) mod two32) ++ ss_sig m
         else []) ++ s)) e
  = (inr m, s).
Proof.
  intros [Hc Hp Hh Hs] Hne. unfold parse_setup_resp. rd.
  rewrite (pkix_x25519_len _ Hp), mod32_44, dec44.
  change (max_key_size <? 44) with false. cbn iota.
  rewrite run_bind, run_palloc.
  rewrite run_bind, run_pread by (apply pkix_x25519_len, Hp).
  rewrite run_bind. unfold parse_ecdh. rewrite (pkix_parse_x25519 C _ Hp). cbn [run].
  destruct (N.ltb_spec 0 (lenN (ss_sig m))) as [Hl|Hl].
  2:{ exfalso. apply Hne, lenN_0. lia. }
  rewrite <- !app_assoc. rd. rd.
  pose proof (max_sig_lt32 _ Hs) as Hlt.
  rewrite be_dec_enc, pow256_4, N.mod_mod, N.mod_small by (unfold two32 in *; lia).
  destruct (N.ltb_spec max_signature_size (lenN (ss_sig m))); [lia|].
  rewrite run_bind, run_palloc. rewrite run_bind, run_pread by reflexivity. cbn [run].
  destruct m as [c k h g]; cbn [ss_hash ss_common ss_pub ss_sig] in *.
  do 3 f_equal. unfold be_dec; cbn [be_dec_acc]. rewrite b2n_n2b, N.mod_small by lia. lia.
Qed.
Lemma setup_resp_rt C m s e : setup_resp_ok m -> ss_sig m <> [] ->
  run (parse_full_setup_resp C) (enc_setup_resp m ++ s) e = (inr m, s).
Proof.
  intros H Hne. unfold parse_full_setup_resp, enc_setup_resp.
  rewrite run_bind, <- app_assoc, resp_common_rt by apply H.
  rewrite <- !app_assoc. apply setup_resp_rt_body; assumption.
Qed.

Record process_req_ok (m : process_req) : Prop := {
  pro_c : req_common_ok (pr_common m);
  pro_res : pr_reserved m < 128;
  pro_id : length (pr_id m) = 16%nat;
  pro_ctr : pr_counter m < two64;
  pro_size : pr_size m = lenN (pr_msg m);
  pro_max : lenN (pr_msg m) <= max_message_size }.

Lemma max_msg_lt64 n : n <= max_message_size -> n < two64.
Proof. unfold max_message_size, two64. lia. Qed.

Definition process_flags (m : process_req) : N :=
  let fl := N.shiftr ((N.shiftl (pr_reserved m) 1) mod 256) 1 in
  if pr_reply m then N.lor fl (N.shiftl 1 7) else fl.

Lemma process_req_rt_body m s e : process_req_ok m ->
  run (parse_process_req (pr_common m))
      (n2b (process_flags m) :: pr_id m ++ be_enc 8 (pr_counter m) ++ be_enc 8 (pr_size m) ++ pr_msg m ++ s) e
  = (inr m, s).
Proof.
  intros [Hc Hr Hid Hctr Hsz Hmax]. unfold parse_process_req.
  rewrite run_bind, run_pcopy1. rd. rd. rd.
  pose proof (max_msg_lt64 _ Hmax) as Hlt.
  rewrite !be_dec_enc_small by (rewrite pow256_8; lia).
  rewrite Hsz. destruct (N.ltb_spec max_message_size (lenN (pr_msg m))); [lia|].
  rewrite run_bind, run_palloc. rewrite run_bind, run_pread by reflexivity. cbn [run].
  pose proof (proc_bits (pr_reply m) _ Hr) as [E1 E2]. cbv zeta in E1, E2.
  unfold process_flags. rewrite E1, E2. destruct m; cbn in *; subst; reflexivity.
Qed.
Lemma process_req_rt m s e : process_req_ok m ->
  run parse_full_process_req (enc_process_req m ++ s) e = (inr m, s).
Proof.
  intros H. unfold parse_full_process_req, enc_process_req.
  rewrite run_bind, <- app_assoc, req_common_rt by apply H.
  rewrite <- !app_assoc. cbn [app]. apply process_req_rt_body, H.
Qed.

Record process_resp_ok (m : process_resp) : Prop := {
  pso_c : resp_common_ok (ps_common m);
  pso_ctr : ps_counter m < two64;
  pso_size : ps_size m = lenN (ps_msg m);
  pso_max : lenN (ps_msg m) <= max_message_size }.

Lemma process_resp_rt_body m s e : process_resp_ok m ->
  run (parse_process_resp (ps_common m))
      (be_enc 8 (ps_counter m) ++ be_enc 8 (ps_size m) ++ ps_msg m ++ s) e
  = (inr m, s).
Proof.
  intros [Hc Hctr Hsz Hmax]. unfold parse_process_resp. rd. rd.
  pose proof (max_msg_lt64 _ Hmax) as Hlt.
  rewrite !be_dec_enc_small by (rewrite pow256_8; lia).
  rewrite Hsz. destruct (N.ltb_spec max_message_size (lenN (ps_msg m))); [lia|].
  rewrite run_bind, run_palloc. rewrite run_bind, run_pread by reflexivity. cbn [run].
  destruct m; cbn in *; subst; reflexivity.
Qed.
Lemma process_resp_rt m s e : process_resp_ok m ->
  run parse_full_process_resp (enc_process_resp m ++ s) e = (inr m, s).
Proof.
  intros H. unfold parse_full_process_resp, enc_process_resp.
  rewrite run_bind, <- app_assoc, resp_common_rt by apply H.
  rewrite <- !app_assoc. apply process_resp_rt_body, H.
Qed.

Record fetch_resp_ok (m : fetch_resp) : Prop := {
  fko_c : resp_common_ok (fk_common m);
  fko_alg : fk_alg m < 256;
  fko_size : fk_size m = lenN (fk_key m);
  fko_max : lenN (fk_key m) <= max_key_size }.

Lemma fetch_resp_rt m s e : fetch_resp_ok m ->
  run parse_full_fetch_resp (enc_fetch_resp m ++ s) e = (inr m, s).
Proof.
  intros [Hc Halg Hsz Hmax]. unfold parse_full_fetch_resp, enc_fetch_resp.
  rewrite run_bind, <- app_assoc, resp_common_rt by assumption.
  rewrite <- !app_assoc. unfold parse_fetch_resp. rd. rd.
  assert (Hlt : lenN (fk_key m) < two64) by (unfold max_key_size, two64 in *; lia).
  rewrite (be_dec_enc_small 8) by (rewrite pow256_8; lia).
  rewrite Hsz. destruct (N.ltb_spec max_key_size (lenN (fk_key m))); [lia|].
  rewrite run_bind, run_palloc. rewrite run_bind, run_pread by reflexivity. cbn [run].
  unfold be_dec; cbn [be_dec_acc]. rewrite b2n_n2b, N.mod_small by lia.
  destruct m; cbn in *; subst; do 3 f_equal.
Qed.

Record error_resp_ok (m : error_resp) : Prop := {
  ero_c : resp_common_ok (er_common m);
  ero_code : er_code m < two32;
  ero_max : lenN (er_msg m) < two63 }.

Lemma error_resp_rt_body m s e : error_resp_ok m ->
  run (parse_error_resp (er_common m))
      (be_enc 4 (er_code m mod two32) ++ be_enc 8 (lenN (er_msg m) mod two64) ++ er_msg m ++ s) e
  = (inr m, s).
Proof.
  intros [Hc Hcode Hmax]. unfold parse_error_resp. rd. rd.
  assert (Hlt : lenN (er_msg m) < two64) by (unfold two63, two64 in *; lia).
  rewrite !N.mod_small by assumption.
  rewrite (be_dec_enc_small 4), (be_dec_enc_small 8) by (rewrite ?pow256_8, ?pow256_4; assumption).
  cbv zeta. destruct (N.ltb_spec 0 (lenN (er_msg m))) as [Hl|Hl].
  - unfold limit_of_size. destruct (N.ltb_spec (lenN (er_msg m)) two63); [|lia].
    cbn [run]. rewrite (fl_copy_app _ (er_msg m)) by reflexivity. cbv iota beta.
    rewrite N.eqb_refl. cbn [andb run]. destruct m; reflexivity.
  - assert (er_msg m = []) as E by (apply lenN_0; lia). rewrite E. cbn [app run].
    destruct m; cbn in *; subst; reflexivity.
Qed.
Lemma error_resp_rt m s e : error_resp_ok m ->
  run parse_full_error_resp (enc_error_resp m ++ s) e = (inr m, s).
Proof.
  intros H. unfold parse_full_error_resp, enc_error_resp.
  rewrite run_bind, <- app_assoc, resp_common_rt by apply H.
  rewrite <- !app_assoc. apply error_resp_rt_body, H.
Qed.

(** ** All parsers are strict *)
Ltac strict_tac :=
  repeat first
    [ apply strict_bind; [first [apply strict_pread|apply strict_pcopy1|apply strict_palloc]|intros ?]
    | match goal with |- strict (if ?b then _ else _) => destruct b end
    | match goal with |- strict (PFail _) => exact I end
    | match goal with |- strict (PRet _) => exact I end ].

Lemma strict_parse_ecdh C b : strict (parse_ecdh C b).
Proof. unfold parse_ecdh. destruct (pkix_parse C b) as [[]|]; exact I. Qed.
Lemma strict_req_common : strict parse_req_common.
Proof. unfold parse_req_common; strict_tac. Qed.
Lemma strict_resp_common : strict parse_resp_common.
Proof. unfold parse_resp_common; strict_tac. Qed.
Lemma strict_setup_req C rc : strict (parse_setup_req C rc).
Proof. unfold parse_setup_req; strict_tac. apply strict_bind; [apply strict_parse_ecdh|intros ?; exact I]. Qed.
Lemma strict_setup_resp C rc : strict (parse_setup_resp C rc).
Proof.
  unfold parse_setup_resp; strict_tac.
  apply strict_bind; [apply strict_parse_ecdh|intros ?]. strict_tac.
Qed.
Lemma strict_process_req rc : strict (parse_process_req rc).
Proof. unfold parse_process_req; strict_tac. Qed.
Lemma strict_process_resp rc : strict (parse_process_resp rc).
Proof. unfold parse_process_resp; strict_tac. Qed.
Lemma strict_fetch_resp rc : strict (parse_fetch_resp rc).
Proof. unfold parse_fetch_resp; strict_tac. Qed.
Lemma strict_error_resp rc : strict (parse_error_resp rc).
Proof.
  unfold parse_error_resp; strict_tac.
  unfold limit_of_size. destruct (be_dec a0 <? two63); cbn [strict andb]; split.
  - intros b [er|] H; [eexists; reflexivity|]. destruct H as [H|H]; [congruence|].
    apply N.eqb_neq in H. rewrite H. eexists; reflexivity.
  - intros b Hb. destruct (lenN b =? be_dec a0); exact I.
  - intros b [er|] H; eexists; reflexivity.
  - intros b Hb. exact I.
Qed.

(** ** Allocation bounds *)
Lemma allocs_pread n s e : allocs (pread n) s e = [].
Proof. unfold pread; cbn [allocs]. destruct (fl_read n s e) as [[?|?] ?]; reflexivity. Qed.
Lemma allocs_pcopy1 s e : allocs pcopy1 s e = [].
Proof.
  unfold pcopy1; cbn [allocs]. destruct (fl_copy 1 s e) as [[b [?|]] ?].
  - reflexivity.
  - destruct b as [|? [|? ?]]; reflexivity.
Qed.
Lemma allocs_palloc n s e : allocs (palloc n) s e = [n].
Proof. reflexivity. Qed.
Lemma allocs_parse_ecdh C b s e : allocs (parse_ecdh C b) s e = [].
Proof. unfold parse_ecdh. destruct (pkix_parse C b) as [[]|]; reflexivity. Qed.

Lemma allocs_bind_le {A B} (M : N) (p : parser A) (f : A -> parser B) s e :
  Forall (fun n => n <= M) (allocs p s e) ->
  (forall a s', Forall (fun n => n <= M) (allocs (f a) s' e)) ->
  Forall (fun n => n <= M) (allocs (pbind p f) s e).
Proof.
  intros H1 H2. rewrite allocs_bind. apply Forall_app; split; [exact H1|].
  destruct (run p s e) as [[?|a] s']; [constructor|apply H2].
Qed.

Ltac alloc_tac :=
  repeat first
    [ apply allocs_bind_le; [rewrite ?allocs_pread, ?allocs_pcopy1, ?allocs_parse_ecdh; try (constructor; fail)|intros ? ?]
    | match goal with |- Forall _ (allocs (if ?b then _ else _) _ _) => destruct b eqn:? end
    | match goal with |- Forall _ (allocs (PFail _) _ _) => constructor end
    | match goal with |- Forall _ (allocs (PRet _) _ _) => constructor end
    | match goal with |- Forall _ (allocs (palloc _) _ _) => rewrite allocs_palloc; constructor; [|constructor] end ].

Lemma setup_req_allocs C rc s e : Forall (fun n => n <= max_key_size) (allocs (parse_setup_req C rc) s e).
Proof. unfold parse_setup_req; alloc_tac. apply N.ltb_ge; assumption. Qed.
Lemma setup_resp_allocs C rc s e : Forall (fun n => n <= max_key_size) (allocs (parse_setup_resp C rc) s e).
Proof.
  unfold parse_setup_resp; alloc_tac; change max_signature_size with max_key_size in *;
  apply N.ltb_ge; assumption.
Qed.
Lemma process_req_allocs rc s e : Forall (fun n => n <= max_message_size) (allocs (parse_process_req rc) s e).
Proof. unfold parse_process_req; alloc_tac. apply N.ltb_ge; assumption. Qed.
Lemma process_resp_allocs rc s e : Forall (fun n => n <= max_message_size) (allocs (parse_process_resp rc) s e).
Proof. unfold parse_process_resp; alloc_tac. apply N.ltb_ge; assumption. Qed.
Lemma fetch_resp_allocs rc s e : Forall (fun n => n <= max_key_size) (allocs (parse_fetch_resp rc) s e).
Proof. unfold parse_fetch_resp; alloc_tac. apply N.ltb_ge; assumption. Qed.

(** ** Rejection of announced sizes above the limit *)
Lemma process_req_reject rc f id ctr n s e :
  length id = 16%nat -> max_message_size < n -> n < two64 ->
  run (parse_process_req rc) (f :: id ++ be_enc 8 ctr ++ be_enc 8 n ++ s) e = (inl ELimit, s).
Proof.
  intros Hid Hn Hm. unfold parse_process_req. rewrite run_bind, run_pcopy1. rd. rd. rd.
  rewrite (be_dec_enc_small 8 n) by (rewrite pow256_8; exact Hm).
  destruct (N.ltb_spec max_message_size n); [reflexivity|lia].
Qed.
Lemma process_resp_reject rc ctr n s e :
  max_message_size < n -> n < two64 ->
  run (parse_process_resp rc) (be_enc 8 ctr ++ be_enc 8 n ++ s) e = (inl ELimit, s).
Proof.
  intros Hn Hm. unfold parse_process_resp. rd. rd.
  rewrite (be_dec_enc_small 8 n) by (rewrite pow256_8; exact Hm).
  destruct (N.ltb_spec max_message_size n); [reflexivity|lia].
Qed.
Lemma setup_req_reject C rc id n s e :
  length id = 16%nat -> max_key_size < n -> n < two32 ->
  run (parse_setup_req C rc) (id ++ be_enc 4 n ++ s) e = (inl ELimit, s).
Proof.
  intros Hid Hn Hm. unfold parse_setup_req. rd. rd.
  rewrite (be_dec_enc_small 4 n) by (rewrite pow256_4; exact Hm).
  destruct (N.ltb_spec max_key_size n); [reflexivity|lia].
Qed.
Lemma setup_resp_reject C rc n s e :
  max_key_size < n -> n < two32 ->
  run (parse_setup_resp C rc) (be_enc 4 n ++ s) e = (inl ELimit, s).
Proof.
  intros Hn Hm. unfold parse_setup_resp. rd.
  rewrite (be_dec_enc_small 4 n) by (rewrite pow256_4; exact Hm).
  destruct (N.ltb_spec max_key_size n); [reflexivity|lia].
Qed.
Lemma setup_resp_sig_reject C rc k h n s e :
  length k = 32%nat -> max_signature_size < n -> n < two32 ->
  run (parse_setup_resp C rc) (be_enc 4 44 ++ pkix_x25519 k ++ [h] ++ be_enc 4 n ++ s) e = (inl ELimit, s).
Proof.
  intros Hk Hn Hm. unfold parse_setup_resp. rd. rewrite dec44.
  change (max_key_size <? 44) with false. cbn iota. rewrite run_bind, run_palloc.
  rewrite run_bind, run_pread by (apply pkix_x25519_len, Hk).
  rewrite run_bind. unfold parse_ecdh. rewrite (pkix_parse_x25519 C _ Hk). cbn [run].
  rd. rd. rewrite (be_dec_enc_small 4 n) by (rewrite pow256_4; exact Hm).
  destruct (N.ltb_spec max_signature_size n); [reflexivity|lia].
Qed.
Lemma fetch_resp_reject rc a n s e :
  max_key_size < n -> n < two64 ->
  run (parse_fetch_resp rc) ([a] ++ be_enc 8 n ++ s) e = (inl ELimit, s).
Proof.
  intros Hn Hm. unfold parse_fetch_resp. rd. rd.
  rewrite (be_dec_enc_small 8 n) by (rewrite pow256_8; exact Hm).
  destruct (N.ltb_spec max_key_size n); [reflexivity|lia].
Qed.

(** ** Published layout *)
Lemma octet_of_be w v : map (octet_of w v) (seq 0 w) = be_enc w v.
Proof.
  revert v; induction w as [|w IH]; intros v; [reflexivity|].
  rewrite seq_S, map_app. cbn [be_enc map Nat.add]. f_equal.
  - rewrite <- IH. apply map_ext_in. intros i Hi. apply in_seq in Hi. unfold octet_of.
    f_equal. replace (S w - 1 - i)%nat with (S (w - 1 - i)) by lia.
    replace (N.of_nat (S (w - 1 - i))) with (N.succ (N.of_nat (w - 1 - i))) by lia.
    rewrite N.pow_succ_r'. rewrite N.div_div; [reflexivity|lia|apply N.pow_nonzero; lia].
  - unfold octet_of. replace (S w - 1 - w)%nat with 0%nat by lia.
    rewrite N.pow_0_r, N.div_1_r. reflexivity.
Qed.

Lemma be_enc_mod k n : be_enc k (n mod 256 ^ N.of_nat k) = be_enc k n.
Proof.
  rewrite <- (be_dec_enc k n). apply be_enc_dec_len, be_enc_length.
Qed.
Lemma be_enc4_mod n : be_enc 4 (n mod two32) = be_enc 4 n.
Proof. exact (be_enc_mod 4 n). Qed.
Lemma be_enc8_mod n : be_enc 8 (n mod two64) = be_enc 8 n.
Proof. exact (be_enc_mod 8 n). Qed.
Lemma octets_cons f l : octets (f :: l) = field_octets f ++ octets l.
Proof. reflexivity. Qed.
Lemma octets_nil : octets [] = [].
Proof. reflexivity. Qed.

Lemma layout_setup_req id k :
  enc_setup_req (new_setup_request id k) = doc_setup_request id (pkix_x25519 k).
Proof.
  unfold enc_setup_req, doc_setup_request. rewrite !octets_cons, octets_nil. cbn [field_octets sr_common new_setup_request sr_id sr_pub].
  rewrite octet_of_be, be_enc4_mod, app_nil_r. reflexivity.
Qed.
Lemma layout_process_req reply id ctr msg :
  enc_process_req (new_process_request id ctr msg reply) = doc_process_request reply id ctr msg.
Proof.
  unfold enc_process_req, doc_process_request. rewrite !octets_cons, octets_nil.
  cbn [field_octets new_process_request pr_common pr_reply pr_reserved pr_id pr_counter pr_size pr_msg].
  rewrite !octet_of_be, app_nil_r. destruct reply; reflexivity.
Qed.
Lemma layout_process_resp ctr msg :
  enc_process_resp (new_process_response ctr msg) = doc_process_response ctr msg.
Proof.
  unfold enc_process_resp, doc_process_response. rewrite !octets_cons, octets_nil.
  cbn [field_octets new_process_response ps_common ps_counter ps_size ps_msg].
  rewrite !octet_of_be, app_nil_r. reflexivity.
Qed.
Lemma layout_error_resp code msg :
  enc_error_resp (new_error_response code msg) = doc_error_response code msg.
Proof.
  unfold enc_error_resp, doc_error_response. rewrite !octets_cons, octets_nil.
  cbn [field_octets new_error_response er_common er_code er_msg].
  rewrite !octet_of_be, be_enc4_mod, be_enc8_mod, app_nil_r. reflexivity.
Qed.
Lemma layout_transcript a b id :
  setup_transcript a b id = doc_transcript (pkix_x25519 a) (pkix_x25519 b) id.
Proof.
  unfold setup_transcript, doc_transcript. rewrite !octets_cons, octets_nil. cbn [field_octets].
  rewrite !octet_of_be, !be_enc4_mod, app_nil_r. reflexivity.
Qed.
Lemma layout_fetch_resp_diff alg key :
  lenN key < two32 ->
  lenN (enc_fetch_resp (new_fetch_response alg key)) = lenN (doc_fetch_key_response alg key) + 4.
Proof.
  intros _. unfold enc_fetch_resp, doc_fetch_key_response. rewrite !octets_cons, octets_nil.
  cbn [field_octets new_fetch_response fk_common fk_alg fk_size fk_key].
  rewrite !octet_of_be, app_nil_r, !lenN_app, !be_enc_lenN.
  change (lenN (enc_resp_common {| rs_success := true; rs_reserved := 0 |})) with 1.
  unfold lenN; cbn [length]. lia.
Qed.
Lemma layout_setup_resp_diff k h sig :
  sig <> [] ->
  lenN (enc_setup_resp (new_setup_response k h sig)) + 4 = lenN (doc_setup_response (pkix_x25519 k) h sig).
Proof.
  intros Hne. unfold enc_setup_resp, doc_setup_response. rewrite !octets_cons, octets_nil.
  cbn [field_octets new_setup_response ss_common ss_pub ss_hash ss_sig].
  destruct (N.ltb_spec 0 (lenN sig)) as [Hl|Hl].
  2:{ exfalso; apply Hne, lenN_0; lia. }
  rewrite !octet_of_be, app_nil_r, !lenN_app, !be_enc_lenN.
  change (lenN (enc_resp_common {| rs_success := true; rs_reserved := 0 |})) with 1.
  unfold lenN; cbn [length]. lia.
Qed.

(** ** Sequences of messages *)
Lemma seq_unique {A} (p : parser A) (enc : A -> bytes) (ok : A -> Prop) :
  (forall m s e, ok m -> run p (enc m ++ s) e = (inr m, s)) ->
  (forall m, ok m -> enc m <> []) ->
  forall l1 l2 t, Forall ok l1 -> Forall ok l2 ->
    concat (map enc l1) = concat (map enc l2) ++ t ->
    exists l3, l1 = l2 ++ l3 /\ concat (map enc l3) = t.
Proof.
  intros Hrt Hne l1 l2; revert l1. induction l2 as [|m2 l2 IH]; intros l1 t H1 H2 E.
  - exists l1. auto.
  - inversion H2 as [|? ? Hm2 Hl2]; subst.
    destruct l1 as [|m1 l1]; cbn [map concat] in E.
    + rewrite <- app_assoc in E. symmetry in E. apply app_eq_nil in E as [E _].
      exfalso; exact (Hne _ Hm2 E).
    + inversion H1 as [|? ? Hm1 Hl1]; subst.
      pose proof (Hrt m1 (concat (map enc l1)) EndEOF Hm1) as R1.
      rewrite E, <- app_assoc, (Hrt m2 _ EndEOF Hm2) in R1. injection R1 as <- E2.
      destruct (IH l1 t Hl1 Hl2 (eq_sym E2)) as (l3 & -> & E3).
      exists l3; auto.
Qed.
