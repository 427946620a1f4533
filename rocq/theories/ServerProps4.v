From Verif Require Import Bytes BytesProofs Parser Crypto Kdf Wire WireSeq Replay SpecReplay ReplayProofs Server ServerSeq
  SpecServer ServerProofs ServerProps ServerProps2 ServerProps3 ServerForge E2EProofs.

(** Anyone who reaches the server from the host of a session can replace it. *)
Lemma setup_replaces C (L : CryptoLaws C) E s host id pub : wf s -> e_host E = Some host ->
  (forall i, e_quit E i = false) -> (forall i, e_store E i = true) ->
  (forall i, exists sk, e_gen E i = Some sk /\ x_dh C sk pub <> None) ->
  request_ok (RqSetup id pub) ->
  let s1 := snd (srun C E (conn_body C) (set_in s (enc_request (RqSetup id pub)))) in
  exists i sk secret, e_gen E i = Some sk /\ x_dh C sk pub = Some secret /\
    known C s1 host id = Some {| ses_secret := secret; ses_win := new_window |} /\
    forall key c msg reply, new_gcm C secret = Some key -> request_ok (RqProcess id c msg reply) -> c <> 0 ->
    gcm_open C key (x00 :: repeat x00 3 ++ be_enc 8 c) msg = None ->
    let '(_, s2) := srun C E (conn_body C) (set_in s1 (enc_request (RqProcess id c msg reply))) in
    no_calls s1 s2 /\ exists t, responded s1 s2 (RsError 2 t).
Proof.
  intros Wf Hh Hq Hst Hg Hok s1.
  pose proof (setup_spec C E (set_in s (enc_request (RqSetup id pub))) id pub [] L Hok) as S.
  assert (Wf' : wf (set_in s (enc_request (RqSetup id pub)))) by (apply wf_set_in, Wf).
  specialize (S ltac:(cbn; rewrite app_nil_r; reflexivity) (Hq _) Wf').
  assert (W1 : wf s1) by (apply WF_conn; exact Wf').
  unfold s1 in *. destruct (srun C E (conn_body C) _) as [r s'] eqn:Es. cbn [snd] in *. clear s1.
  assert (K : exists i sk secret, e_gen E i = Some sk /\ x_dh C sk pub = Some secret /\
     known C s' host id = Some {| ses_secret := secret; ses_win := new_window |}).
  { destruct S as (_ & _ & [S|[S|S]]).
    - destruct S as (h & i & sk & sh & j & sig & Eh & Eg & Ed & _ & (Kn & _) & _). rewrite Hh in Eh. injection Eh as <-. eauto 6.
    - exfalso. destruct S as (_ & (c & t & _ & [[_ [[i Eg]|(i & sk & Eg & Ed)]]|[_ [Eh|[i Et]]]]) & _).
      + destruct (Hg i) as (sk & Eg' & _). congruence.
      + destruct (Hg i) as (sk' & Eg' & Ed'). congruence.
      + congruence.
      + rewrite Hst in Et. discriminate.
    - destruct S as (h & i & sk & sh & j & Eh & Eg & Ed & (Kn & _) & _). rewrite Hh in Eh. injection Eh as <-. eauto 6. }
  destruct K as (i & sk & secret & Eg & Ed & Kn). exists i, sk, secret. split; [exact Eg|]. split; [exact Ed|]. split; [exact Kn|].
  intros key c msg reply Ek Hrq Nz Ho.
  pose proof (process_unauthentic C E (set_in s' (enc_request (RqProcess id c msg reply))) host id msg [] c reply Hrq) as P.
  specialize (P ltac:(cbn; rewrite app_nil_r; reflexivity) (Hq _) Hh _ [] Kn (Forall_nil _) eq_refl (wf_set_in _ _ W1)).
  assert (Nr : ~ refused_after [] c).
  { unfold refused_after. cbn. intros [H|[H|H]]; auto; lia. }
  specialize (P Nr key Ek Ho).
  destruct (srun C E (conn_body C) (set_in s' _)) as [r2 s2]. destruct P as ((t & P1) & P2 & _).
  split; [exact P2|]. exists t. exact P1.
Qed.

Lemma flag_not_authenticated C E s host id msg rest ctr :
  request_ok (RqProcess id ctr msg false) ->
  s_in s = enc_request (RqProcess id ctr msg false) ++ rest ->
  e_quit E (s_step s) = false -> e_host E = Some host ->
  forall ses hist, known C s host id = Some ses ->
  Forall (fun c => c < 2 ^ 64) hist -> snd (checks new_window hist) = ses_win ses ->
  wf s -> ~ refused_after hist ctr ->
  forall key, new_gcm C (ses_secret ses) = Some key ->
  forall pt, gcm_open C key (x00 :: repeat x00 3 ++ be_enc 8 ctr) msg = Some pt ->
  let '(res, s') := srun C E (conn_body C) s in
  (exists p, s_calls s' = s_calls s ++ [(p, ctr, false, pt)]) /\
  ((forall i, exists out, e_handler E i false pt = HOk out) -> silent s s').
Proof.
  intros Hok Hin Hq Hh ses hist Kn Fh Hw Wf Nr key Ek pt Ho.
  pose proof (process_accepted C E s host id msg rest ctr false Hok Hin Hq Hh ses hist Kn Fh Hw Wf Nr key Ek pt Ho) as P.
  destruct (srun C E (conn_body C) s) as [res s']. destruct P as (P1 & _ & _ & i & P).
  split; [exact P1|]. intros H. destruct (H i) as (out & Eo). rewrite Eo in P. apply P.
Qed.
