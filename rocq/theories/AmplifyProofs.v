(** Lemmas for C175: how much the server sends for a datagram. *)
From Verif Require Import Bytes BytesProofs Parser Crypto Kdf Wire WireProofs WireSeq Replay Server ServerSeq SpecServer ServerProofs ServerProps3
  Udp SpecUdp UdpProofs UdpThms.
From Coq Require Import Lia.

Section amplify.
Variables (C : Crypto) (L : CryptoLaws C) (E : senv) (K G : N).
Hypothesis W : forall i b, e_write E i b = (lenN b, None).
Hypothesis HG : forall i h x sig, e_sign E i h x = KOk sig -> lenN sig <= G.
Hypothesis HK : forall i alg pk raw, e_fetch E i = KOk (alg, pk) -> pkix_marshal C pk = Some raw -> lenN raw <= K.
Definition most : N := N.max 65 (N.max (54 + G) (10 + K)).

Lemma sexec_calls {R} (e : seff R) s : exists l, s_calls (snd (sexec C E e s)) = s_calls s ++ l.
Proof.
  destruct e; cbn [sexec]; try (exists []; rewrite app_nil_r; reflexivity).
  - exists []. rewrite app_nil_r. destruct (fl_read n (s_in s) (e_end E)); reflexivity.
  - exists []. rewrite app_nil_r. destruct (fl_copy n (s_in s) (e_end E)); reflexivity.
  - exists []. rewrite app_nil_r. destruct (e_write E (s_step s) b); reflexivity.
  - exists []. rewrite app_nil_r. destruct (e_store E (s_step s)); reflexivity.
  - exists []. rewrite app_nil_r. destruct (check_and_update _ c); reflexivity.
  - eexists. reflexivity.
Qed.
Lemma srun_calls {A} (p : sprog A) : forall s, exists l, s_calls (snd (srun C E p s)) = s_calls s ++ l.
Proof.
  induction p as [a| |R e k IH]; intros s; [exists []; rewrite app_nil_r; reflexivity|exists []; rewrite app_nil_r; reflexivity|].
  cbn [srun]. destruct (sexec_calls e s) as (l1 & H1). destruct (sexec C E e s) as [r s1]. cbn [snd] in H1.
  destruct (IH r s1) as (l2 & H2). exists (l1 ++ l2). rewrite H2, H1, app_assoc. reflexivity.
Qed.

Definition AM (p : sprog bool) : Prop := forall s, s_calls (snd (srun C E p s)) = s_calls s ->
  exists l, s_sent (snd (srun C E p s)) = s_sent s ++ l /\ lenN (wire l) <= most.

Lemma AM_ret b : AM (SRet b).
Proof. intros s _. exists []. cbn. rewrite app_nil_r. split; [reflexivity|lia]. Qed.
Lemma AM_panic : AM SPanic.
Proof. intros s _. exists []. cbn. rewrite app_nil_r. split; [reflexivity|lia]. Qed.
Lemma AM_do {R} (e : seff R) k : is_write e = false -> (forall s, AM (k (fst (sexec C E e s)))) -> AM (SDo e k).
Proof.
  intros H Hk s. cbn [srun]. pose proof (sexec_sent C E e s H) as Hs. specialize (Hk s). destruct (sexec_calls e s) as (l1 & H1).
  destruct (sexec C E e s) as [r s']. cbn [fst snd] in *. intros Hc.
  destruct (srun_calls (k r) s') as (l2 & H2). assert (l1 = []) as ->.
  { rewrite H2, H1, <- app_assoc in Hc. rewrite <- (app_nil_r (s_calls s)) in Hc at 2. apply app_inv_head in Hc. apply app_eq_nil in Hc as [-> _]. reflexivity. }
  rewrite app_nil_r in H1. destruct (Hk s') as (l & Hl & Hb); [congruence|]. exists l. rewrite Hl, Hs. auto.
Qed.
Lemma AM_handler p c reply m k : AM (SDo (SHandler p c reply m) k).
Proof.
  intros s Hc. exfalso. cbn [srun sexec] in Hc.
  match type of Hc with s_calls (snd (srun C E ?q ?s1)) = _ => destruct (srun_calls q s1) as (l & H) end.
  rewrite H in Hc. cbn [s_calls add_call tick] in Hc. rewrite <- app_assoc in Hc. rewrite <- (app_nil_r (s_calls s)) in Hc at 2.
  apply app_inv_head in Hc. discriminate.
Qed.
Lemma AM_lift {A} (p : parser A) f : (forall r, AM (f r)) -> AM (sbind (slift p) f).
Proof. intros H s. rewrite srun_bind, srun_lift. exact (H _ (set_in s _)). Qed.
Lemma wire_one b : lenN (wire [(b, lenN b)]) = lenN b.
Proof. unfold wire. cbn [map concat fst snd]. rewrite takeN_all, app_nil_r. reflexivity. Qed.
Lemma AM_error c t : lenN t <= 52 -> AM (reply_error c t).
Proof.
  intros Lt s _. unfold reply_error, write_error_response. cbn [sbind sdo srun sexec]. rewrite W, N.min_id. cbn [fst snd srun].
  eexists. split; [reflexivity|]. rewrite wire_one. unfold enc_error_resp. rewrite !lenN_app, !be_enc_lenN. cbn [new_error_response er_common er_msg].
  unfold enc_resp_common. cbn [rs_success]. unfold most. change (lenN [_]) with 1. lia.
Qed.
Lemma AM_response b : lenN b <= most -> AM (write_response b).
Proof.
  intros Lb s _. unfold write_response. cbn [sbind sdo srun sexec]. rewrite W, N.min_id. cbn [fst snd srun].
  eexists. split; [reflexivity|]. rewrite wire_one. exact Lb.
Qed.
Lemma AM_process m : AM (process_after C m).
Proof.
  unfold process_after. repeat match goal with
  | |- AM (SRet _) => apply AM_ret
  | |- AM SPanic => apply AM_panic
  | |- AM (sbind (sdo _) _) => cbn [sbind sdo]
  | |- AM (SDo (SHandler _ _ _ _) _) => apply AM_handler
  | |- AM (SDo ?e _) => apply AM_do; [reflexivity|intros ?]
  | |- AM (reply_error _ _) => apply AM_error; vm_compute; discriminate
  | |- AM (match ?x with _ => _ end) => destruct x
  end.
Qed.
Lemma AM_setup m : AM (setup_after C m).
Proof.
  unfold setup_after. cbn [sbind sdo]. apply AM_do; [reflexivity|intros s0]. destruct (fst _) as [sk|]; [|apply AM_error; vm_compute; discriminate].
  destruct (x_dh C sk (sr_pub m)) as [shared|]; [|apply AM_error; vm_compute; discriminate].
  apply AM_do; [reflexivity|intros s1]. destruct (fst _) as [host|]; [|apply AM_error; vm_compute; discriminate].
  apply AM_do; [reflexivity|intros s2]. apply AM_do; [reflexivity|intros s3]. destruct (negb _); [apply AM_error; vm_compute; discriminate|]. cbv zeta.
  apply AM_do; [reflexivity|intros s4]. cbn [sexec fst].
  match goal with |- context [e_sign E ?i ?h ?x] => pose proof (HG i h x) as Hs; destruct (e_sign E i h x) as [sig| |] end;
    [|apply AM_error; vm_compute; discriminate|apply AM_panic].
  cbn [new_hash_type]. apply AM_response. specialize (Hs sig eq_refl). unfold enc_setup_resp. cbn [new_setup_response ss_common ss_pub ss_hash ss_sig].
  unfold most, pkix_x25519. unfold enc_resp_common. cbn [rs_success]. destruct (0 <? lenN sig);
    rewrite !lenN_app, !be_enc_lenN; unfold lenN; rewrite ?app_length, ?(x_pub_len C L); cbn [length]; fold (lenN sig); change (length x25519_prefix) with 12%nat; lia.
Qed.
Lemma AM_fetch : AM (fetch_key_handler C).
Proof.
  unfold fetch_key_handler. cbn [sbind sdo]. apply AM_do; [reflexivity|intros s0]. cbn [sexec fst].
  pose proof (HK (s_step s0)) as H. destruct (e_fetch E (s_step s0)) as [[alg pk]| |]; [|apply AM_error; vm_compute; discriminate|apply AM_panic].
  destruct (pkix_marshal C pk) as [raw|] eqn:Er; [|apply AM_error; vm_compute; discriminate].
  specialize (H alg pk raw eq_refl Er). apply AM_response. unfold enc_fetch_resp. cbn [new_fetch_response fk_common fk_alg fk_size fk_key]. unfold enc_resp_common. cbn [rs_success].
  rewrite !lenN_app, !be_enc_lenN. change (lenN [_]) with 1. unfold most. lia.
Qed.
Lemma AM_request : AM (one_request C).
Proof.
  unfold one_request. apply AM_lift. intros [e|rc]; [apply AM_ret|]. destruct (_ =? _); [|apply AM_ret]. unfold handle.
  destruct (_ =? _). { apply AM_response. unfold most. cbn. lia. }
  destruct (_ =? _). { unfold setup_handler. apply AM_lift. intros [e|m]; [apply AM_error; vm_compute; discriminate|apply AM_setup]. }
  destruct (_ =? _). { unfold process_handler. apply AM_lift. intros [e|m]; [apply AM_error; vm_compute; discriminate|apply AM_process]. }
  destruct (_ =? _); [apply AM_fetch|apply AM_ret].
Qed.
End amplify.

Definition call_eq_dec (x y : nat * N * bool * bytes) : {x = y} + {x <> y}.
Proof.
  destruct x as [[[p c] r] b], y as [[[p' c'] r'] b'].
  destruct (Nat.eq_dec p p'), (N.eq_dec c c'), (Bool.bool_dec r r'), (list_eq_dec Byte.byte_eq_dec b b'); [left; congruence|right; congruence..].
Qed.
Lemma udp_bounded C (L : CryptoLaws C) E hostof chunk send n s a d q K G : n_closed n = false -> n_in n = (a, d) :: q ->
  (forall i h x sig, e_sign E i h x = KOk sig -> lenN sig <= G) ->
  (forall i alg pk raw, e_fetch E i = KOk (alg, pk) -> pkix_marshal C pk = Some raw -> lenN raw <= K) ->
  let '(_, (n', s')) := udp_exchange C E hostof chunk send n s in
  s_calls s' <> s_calls s \/ n_out n' = n_out n \/
  exists b, n_out n' = n_out n ++ [(Some a, b)] /\ lenN b <= N.max 65 (N.max (54 + G) (10 + K)).
Proof.
  intros Hc Hn HG HK. destruct (exchange_flat C E hostof chunk send n s a d q Hc Hn) as (r & s1 & l & ok & n' & s' & -> & Hr & Hs & Hl & _ & _ & _ & Ho).
  assert (Cs : s_calls s' = s_calls s1) by (rewrite <- Hs; reflexivity).
  destruct (list_eq_dec call_eq_dec (s_calls s') (s_calls s)) as [E1|E1]; [right|left; exact E1].
  destruct (AM_request C L (dgram_env E (hostof a)) K G (fun i b => eq_refl) HG HK (set_in s d)) as (l2 & H2 & B2).
  { rewrite Hr. cbn [snd]. rewrite <- Cs. exact E1. }
  rewrite Hr in H2. cbn [snd set_in s_sent] in H2. rewrite Hl in H2. apply app_inv_head in H2. subst l2.
  destruct Ho as [(_ & Ho & _)|(_ & _ & Ho)]; [left; exact Ho|]. destruct ok; [right; exists (wire l); split; [exact Ho|exact B2]|left; rewrite Ho; apply app_nil_r].
Qed.

Lemma udp_amplifies C E hostof chunk send n s a q alg pk raw : n_closed n = false -> n_in n = (a, [x14]) :: q ->
  (forall i, e_fetch E i = KOk (alg, pk)) -> pkix_marshal C pk = Some raw -> (forall i b, send i b = true) ->
  let '(_, (n', s')) := udp_exchange C E hostof chunk send n s in
  exists b, n_out n' = n_out n ++ [(Some a, b)] /\ lenN b = 10 + lenN raw.
Proof.
  intros Hc Hn Hf Hr Hs. destruct (exchange_flat C E hostof chunk send n s a [x14] q Hc Hn) as (r & s1 & l & ok & n' & s' & -> & Hx & _ & Hl & _ & _ & _ & Ho).
  assert (l = [(enc_fetch_resp (new_fetch_response alg raw), lenN (enc_fetch_resp (new_fetch_response alg raw)))]) as ->.
  { apply (f_equal snd) in Hx. cbn [snd] in Hx. subst s1.
    unfold one_request, parse_req_common, pcopy1 in Hl. cbn [pbind slift sbind srun sexec] in Hl.
    change (fl_copy 1 (s_in (set_in s [x14])) _) with (([x14], @None perr), @nil byte) in Hl. cbn [slift sbind pbind] in Hl.
    change (rq_version _ =? version1) with true in Hl. cbv iota in Hl. unfold handle in Hl.
    change (rq_action _ =? action_hello) with false in Hl. change (rq_action _ =? action_setup) with false in Hl.
    change (rq_action _ =? action_process) with false in Hl. change (rq_action _ =? action_fetch_key) with true in Hl. cbv iota in Hl.
    unfold fetch_key_handler in Hl. cbn [sbind sdo srun sexec dgram_env e_fetch] in Hl. rewrite Hf, Hr in Hl.
    unfold write_response in Hl. cbn [sbind sdo srun sexec dgram_env e_write] in Hl. rewrite N.min_id in Hl. cbn [snd add_sent tick set_in s_sent] in Hl.
    apply app_inv_head in Hl. symmetry. exact Hl. }
  destruct Ho as [(Ho & _)|(_ & Hk & Ho)].
  { apply (f_equal lenN) in Ho. rewrite wire_one in Ho. discriminate. }
  rewrite Hs in Hk. subst ok. eexists. split; [exact Ho|]. rewrite wire_one.
  unfold enc_fetch_resp. cbn [new_fetch_response fk_common fk_alg fk_size fk_key]. unfold enc_resp_common. cbn [rs_success].
  rewrite !lenN_app, !be_enc_lenN. change (lenN [_]) with 1. lia.
Qed.
