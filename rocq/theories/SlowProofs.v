(** A handler that takes longer than the write timeout. *)
From Verif Require Import Bytes BytesProofs Parser Crypto Kdf Wire WireSeq Replay SpecReplay ReplayProofs Server ServerSeq SpecServer ServerProps ServerProps2 Timed SpecTimed.

Lemma accepted_last hist c : forall w, fst (check_and_update (snd (checks w hist)) c) = true ->
  In c (accepted (hist ++ [c]) (fst (checks w (hist ++ [c])))).
Proof.
  induction hist as [|x hist IH]; intros w H; cbn [app checks accepted].
  - cbn [checks snd] in H. destruct (check_and_update w c) as [r w']. cbn [fst] in *. subst r. left. reflexivity.
  - cbn [checks] in H. destruct (check_and_update w x) as [r w']. specialize (IH w').
    destruct (checks w' hist) as [rs w2]. destruct (checks w' (hist ++ [c])) as [rs3 w3]. cbn [fst snd accepted] in *.
    apply in_or_app. right. apply IH, H.
Qed.

Lemma slow_reply C E delay host p sec hist key pt out d m t s :
  e_host E = Some host -> s_map s (session_key C host (pr_id m)) = Some p ->
  s_heap s p = {| ses_secret := sec; ses_win := snd (checks new_window hist) |} ->
  Forall (fun x => x < 2 ^ 64) hist -> pr_counter m < 2 ^ 64 -> ~ refused_after hist (pr_counter m) ->
  new_gcm C sec = Some key -> gcm_open C key (x00 :: repeat x00 3 ++ be_enc 8 (pr_counter m)) (pr_msg m) = Some pt ->
  (forall i, e_handler E i true pt = HOk out) -> pr_reply m = true ->
  t_wd t = Some d -> d <= t_now t + spent delay (t_n t) 5 ->
  let '(r, (_, s')) := trun C E delay (process_after C m) t s in
  r = Some false /\ s_calls s' = s_calls s ++ [(p, pr_counter m, true, pt)] /\
  (exists b, s_sent s' = s_sent s ++ [(b, 0)]) /\
  fst (check_and_update (ses_win (s_heap s' p)) (pr_counter m)) = false.
Proof.
  intros H1 H2 H3 H4 H5 H6 H7 H8 H9 H10 H11 H12.
  pose proof (proj2 (fresh_iff hist _ H4 H5) H6) as F.
  unfold process_after. cbn [sdo sbind trun texec sexec fst snd]. rewrite H1.
  cbn [sdo sbind trun texec sexec fst snd]. rewrite H2.
  cbn [sdo sbind trun texec sexec fst snd]. rewrite H3. cbn [ses_secret ses_win].
  destruct (check_and_update (snd (checks new_window hist)) (pr_counter m)) as [fr w] eqn:CU. cbn [fst] in F. subst fr.
  cbn [fst snd negb sdo sbind trun texec sexec]. cbn [set_session s_heap]. rewrite Nat.eqb_refl. cbn [ses_secret].
  rewrite H7. change (gcm_nonce dir_c2s (pr_counter m)) with (x00 :: repeat x00 3 ++ be_enc 8 (pr_counter m)). rewrite H8, H10.
  cbn [sdo sbind trun texec sexec fst snd]. rewrite H9.
  unfold write_response. cbn [sdo sbind trun texec sexec fst snd].
  match goal with |- context [past ?a ?b] => assert (P : past a b = true) end.
  { cbn [t_pass t_wd t_now t_n]. rewrite H11. cbn [past]. apply N.leb_le. cbn [spent] in H12. lia. }
  rewrite P. cbn [trun fst snd]. split; [reflexivity|]. split; [reflexivity|]. split; [eexists; reflexivity|].
  cbn. rewrite Nat.eqb_refl. cbn [ses_win].
  assert (W : w = snd (checks new_window (hist ++ [pr_counter m]))).
  { rewrite checks_app. cbn [snd checks]. rewrite CU. reflexivity. }
  rewrite W. apply Bool.not_true_is_false. rewrite fresh_iff by (try assumption; apply Forall_app; auto).
  intros R. apply R. unfold refused_after. right. left. apply accepted_last. rewrite CU. reflexivity.
Qed.
