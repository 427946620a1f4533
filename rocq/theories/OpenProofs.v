(** A connection stays open as long as the network works, nothing panics and
    version 1 is spoken. *)
From Verif Require Import Bytes BytesProofs Parser Crypto Kdf Wire WireSeq WireProofs Replay Server ServerSeq SpecServer
  ServerProofs ServerProps ServerProps2 ServerProps3.

Section Open.
Variables (C : Crypto) (E : senv).
Hypothesis Hw : writes_all E.
Hypothesis Hp : no_panics E.

Definition opens (p : sprog bool) : Prop := forall s, fst (srun C E p s) = Some true.

Lemma opens_error b : opens (write_error_response b).
Proof.
  intros s. unfold write_error_response. rewrite srun_bind. cbn [sdo srun sexec].
  destruct (Hw (s_step s) b) as [H1 H2]. destruct (e_write E (s_step s) b) as [n er]. cbn [fst snd] in *. subst er.
  cbn. rewrite N.min_r by exact H1. rewrite N.eqb_refl. reflexivity.
Qed.

Lemma opens_reply c m : opens (reply_error c m).
Proof. apply opens_error. Qed.

Lemma opens_response b : opens (write_response b).
Proof.
  intros s. unfold write_response. rewrite srun_bind. cbn [sdo srun sexec].
  destruct (Hw (s_step s) b) as [H1 H2]. destruct (e_write E (s_step s) b) as [n er]. cbn [fst snd] in *. subst er.
  cbn. rewrite N.min_r by exact H1. rewrite N.eqb_refl. reflexivity.
Qed.

Lemma opens_do {R} (e : seff R) k :
  (forall s, fst (srun C E (k (fst (sexec C E e s))) (snd (sexec C E e s))) = Some true) -> opens (sbind (sdo e) k).
Proof.
  intros H s. unfold sdo. cbn [sbind srun]. specialize (H s). destruct (sexec C E e s) as [r s']. exact H.
Qed.

Lemma opens_setup m : opens (setup_after C m).
Proof.
  unfold setup_after. apply opens_do. intros s. cbn [sexec fst snd].
  destruct (e_gen E (s_step s)) as [sk|]; [|apply opens_reply].
  destruct (x_dh C sk (sr_pub m)) as [sh|]; [|apply opens_reply].
  apply opens_do. intros s1. cbn [sexec fst snd]. destruct (e_host E) as [h|]; [|apply opens_reply].
  apply opens_do. intros s2. cbn [sexec fst snd].
  apply opens_do. intros s3. cbn [sexec fst snd].
  destruct (e_store E (s_step s3)); cbn [fst snd negb]; [|apply opens_reply].
  apply opens_do. intros s4. cbn [sexec fst snd]. destruct Hp as (_ & Hs & _).
  specialize (Hs (s_step s4) SHA512 (setup_transcript (sr_pub m) (x_pub C sk) (sr_id m))).
  destruct (e_sign E (s_step s4) SHA512 _) as [sg| |]; [|apply opens_reply|congruence].
  cbn [new_hash_type]. apply opens_response.
Qed.

Lemma opens_process m : opens (process_after C m).
Proof.
  unfold process_after. apply opens_do. intros s. cbn [sexec fst snd].
  destruct (e_host E) as [h|]; [|apply opens_reply].
  apply opens_do. intros s1. cbn [sexec fst snd].
  destruct (s_map s1 _) as [p|]; [|apply opens_reply].
  apply opens_do. intros s2. cbn [sexec].
  destruct (check_and_update _ _) as [fr w]. cbn [fst snd]. destruct fr; cbn [negb]; [|apply opens_reply].
  apply opens_do. intros s3. cbn [sexec fst snd].
  destruct (new_gcm C _) as [key|]; [|apply opens_reply].
  destruct (gcm_open C key _ _) as [msg|]; [|apply opens_reply].
  apply opens_do. intros s4. cbn [sexec fst snd]. destruct Hp as (Hh & _ & _).
  specialize (Hh (s_step s4) (pr_reply m) msg).
  destruct (e_handler E (s_step s4) (pr_reply m) msg) as [out| |]; [|apply opens_reply|congruence].
  destruct (pr_reply m); [|reflexivity].
  apply opens_do. intros s5. apply opens_response.
Qed.

Lemma opens_fetch : opens (fetch_key_handler C).
Proof.
  unfold fetch_key_handler. apply opens_do. intros s. cbn [sexec fst snd]. destruct Hp as (_ & _ & Hf).
  specialize (Hf (s_step s)). destruct (e_fetch E (s_step s)) as [[alg pk]| |]; [|apply opens_reply|congruence].
  destruct (pkix_marshal C pk); [apply opens_response|apply opens_reply].
Qed.

Lemma opens_lift {A} (p : parser A) k : (forall r, opens (k r)) -> opens (sbind (slift p) k).
Proof. intros H s. rewrite srun_bind, srun_lift. apply H. Qed.

Lemma opens_handle rc : opens (handle C rc).
Proof.
  unfold handle. destruct (rq_action rc =? action_hello); [apply opens_response|].
  destruct (rq_action rc =? action_setup).
  { apply opens_lift. intros [e|m]; [apply opens_reply|apply opens_setup]. }
  destruct (rq_action rc =? action_process).
  { apply opens_lift. intros [e|m]; [apply opens_reply|apply opens_process]. }
  destruct (rq_action rc =? action_fetch_key); [apply opens_fetch|intros s; reflexivity].
Qed.

Theorem stays_open s b i : e_quit E (s_step s) = false -> s_in s = b :: i -> b2n b / 16 = 1 ->
  fst (srun C E (conn_body C) s) = Some true.
Proof.
  intros Hq Hin Hb. destruct (conn_body_hdr C E s b i Hq Hin) as (rc & [Hv Hac] & Hrb & ->).
  assert (Ev : rq_version rc = b2n b / 16).
  { rewrite Hrb. replace (rq_version rc * 16 + rq_action rc) with (rq_action rc + rq_version rc * 16) by lia.
    rewrite N.div_add by lia. rewrite N.div_small by exact Hac. lia. }
  rewrite Ev, Hb. change (1 =? version1) with true. cbv iota. apply opens_handle.
Qed.

Theorem all_answered rs : (forall n, e_quit E n = false) -> forall s,
  fst (one_by_one C E rs s) = Some true.
Proof.
  intros Hq. induction rs as [|r rs IH]; intros s; [reflexivity|]. cbn [one_by_one].
  assert (Ho : fst (srun C E (conn_body C) (set_in s (enc_request r))) = Some true).
  { destruct r; (eapply stays_open; [apply Hq|reflexivity|reflexivity]). }
  destruct (srun C E (conn_body C) (set_in s (enc_request r))) as [o s']. cbn [fst] in Ho. subst o. apply IH.
Qed.
End Open.
