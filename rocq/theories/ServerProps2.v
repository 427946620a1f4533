From Verif Require Import Bytes BytesProofs Parser ParserProofs Crypto Kdf Wire WireProofs WireSeq WireExtra
  Replay SpecReplay ReplayProofs Base64 Base64Proofs Server ServerSeq SpecServer ServerProofs ServerProps.

Lemma new_gcm_total C (L : CryptoLaws C) sec : exists k, new_gcm C sec = Some k /\ length k = 32%nat.
Proof.
  unfold new_gcm, derive_key, aes_key_size.
  change (32 <=? 0)%Z with false. change (255 * 32 <? 32)%Z with false. cbv iota.
  unfold hkdf_expand. change (Z.to_nat 32) with 32%nat. change ((32 + 31) / 32)%nat with 1%nat.
  cbn [hkdf_blocks]. rewrite app_nil_r, firstn_all2 by (rewrite (hmac256_len C L); lia).
  rewrite (hmac256_len C L). cbn. eexists. split; [reflexivity|]. apply (hmac256_len C L).
Qed.

Lemma fresh_iff hist c : Forall (fun x => x < two64) hist -> c < two64 ->
  fst (check_and_update (snd (checks new_window hist)) c) = true <-> ~ refused_after hist c.
Proof.
  intros Hh Hc. pose proof (next_answer hist c Hh Hc) as N. unfold refused_after.
  destruct (checks new_window hist) as [rs w]. cbv zeta in *. cbn [fst snd]. destruct N as [N _].
  rewrite N. split.
  - intros (A & B & D) [F|[F|F]]; [exact (A F)|exact (B F)|lia].
  - intros F. repeat split.
    + intros G; apply F; auto.
    + intros G; apply F; auto.
    + destruct (N.lt_ge_cases (highest (accepted hist rs)) (c + 64)); [assumption|exfalso; apply F; auto].
Qed.
Lemma stale_keeps w c : fst (check_and_update w c) = false -> check_and_update w c = (false, w).
Proof.
  unfold check_and_update. repeat match goal with |- context [if ?x then _ else _] => destruct x end;
  cbn; congruence.
Qed.

(** ** Process *)
Section Process.
  Variables (C : Crypto) (E : senv) (s : sst) (host id msg rest : bytes) (ctr : N) (reply : bool).
  Let rq := RqProcess id ctr msg reply.
  Hypothesis Hok : request_ok rq.
  Hypothesis Hin : s_in s = enc_request rq ++ rest.
  Hypothesis Hq : e_quit E (s_step s) = false.
  Hypothesis Hh : e_host E = Some host.

  Let m := new_process_request id ctr msg reply.
  Let s0 := set_in (tick s) rest.

  Lemma process_start : srun C E (conn_body C) s = srun C E (process_after C m) s0.
  Proof. exact (conn_body_ok C E s rq rest Hok Hin Hq). Qed.

  Lemma process_unknown : known C s host id = None ->
    let '(res, s') := srun C E (conn_body C) s in
    (exists t, responded s s' (RsError 3 t)) /\ no_calls s s' /\ same_sessions C s s' /\
    s_in s' = rest /\ (writes_all E -> res = Some true).
  Proof.
    intros Hk. rewrite process_start. unfold process_after. cbn [sdo sbind srun sexec]. rewrite Hh.
    cbn [sdo sbind srun sexec]. unfold known in Hk. 
    change (s_map s0 (session_key C host (pr_id m))) with (s_map s (session_key C host id)).
    destruct (s_map s (session_key C host id)) as [p|] eqn:Ek; [discriminate|].
    destruct (reply_error_run C E code_unknown_client msg_unknown s0) as (n & ok & R & _ & _ & RW).
    rewrite R. split; [exists msg_unknown; apply responded_add; reflexivity|].
    split; [reflexivity|]. split; [intros h i; reflexivity|]. split; [reflexivity|].
    intros W; rewrite (RW W); reflexivity.
  Qed.

  Variable (ses : session) (hist : list N).
  Hypothesis Hk : known C s host id = Some ses.
  Hypothesis Hhist : Forall (fun c => c < two64) hist.
  Hypothesis Hwin : snd (checks new_window hist) = ses_win ses.

  Lemma known_ptr : exists p, s_map s (session_key C host id) = Some p /\ s_heap s p = ses.
  Proof.
    unfold known in Hk. destruct (s_map s (session_key C host id)) as [p|]; [|discriminate].
    injection Hk as <-. eauto.
  Qed.
  Let s_chk p := set_session s0 p {| ses_secret := ses_secret ses; ses_win := snd (check_and_update (ses_win ses) ctr) |}.

  Lemma process_check : exists p, s_map s (session_key C host id) = Some p /\ s_heap s p = ses /\
    srun C E (conn_body C) s =
    srun C E (if negb (fst (check_and_update (ses_win ses) ctr)) then reply_error code_replay msg_replay
              else dos secret <- sdo (SSecret p);
            match new_gcm C secret with
            | None => reply_error code_server_error msg_derive
            | Some key =>
                match gcm_open C key (gcm_nonce dir_c2s ctr) msg with
                | None => reply_error code_server_error msg_decrypt
                | Some message =>
                    dos hr <- sdo (SHandler p ctr reply message);
                    match hr with
                    | HPanic => SPanic
                    | HErr => reply_error code_server_error msg_handle
                    | HOk out =>
                        if reply then
                          dos ct <- sdo (SSeal p ctr key (gcm_nonce dir_s2c ctr) out);
                          write_response (enc_process_resp (new_process_response ctr ct))
                        else SRet true
                    end
                end
            end) (s_chk p).
  Proof.
    destruct known_ptr as (p & Ep & Eh). exists p. split; [exact Ep|]. split; [exact Eh|].
    rewrite process_start. unfold process_after.
    cbn [sdo sbind srun sexec]. rewrite Hh. cbn [sdo sbind srun sexec].
    change (pr_counter m) with ctr. change (pr_msg m) with msg. change (pr_reply m) with reply.
    change (s_map s0 (session_key C host (pr_id m))) with (s_map s (session_key C host id)). rewrite Ep.
    cbn [sdo sbind srun sexec]. unfold s_chk. change (s_heap s0 p) with (s_heap s p). rewrite Eh.
    destruct (check_and_update (ses_win ses) ctr) as [r w]. reflexivity.
  Qed.

  Lemma same_after_stale p : s_heap s p = ses -> check_and_update (ses_win ses) ctr = (false, ses_win ses) ->
    forall b n, same_sessions C s (add_sent (tick (s_chk p)) b n).
  Proof.
    intros Eh Ec b n h i. unfold known, s_chk. cbn. destruct (s_map s (session_key C h i)) as [q|]; [|reflexivity].
    destruct (Nat.eqb_spec q p) as [->|_]; [|reflexivity]. rewrite Ec. cbn. rewrite Eh. destruct ses; reflexivity.
  Qed.

  Lemma process_replay_text : refused_after hist ctr ->
    let '(res, s') := srun C E (conn_body C) s in
    responded s s' (RsError 5 msg_replay) /\ no_calls s s' /\ same_sessions C s s' /\
    s_in s' = rest /\ (writes_all E -> res = Some true).
  Proof.
    intros Hr. destruct process_check as (p & Ep & Eh & ->).
    assert (Hc : ctr < two64) by (destruct Hok as (_ & H & _); exact H).
    assert (F : fst (check_and_update (ses_win ses) ctr) = false).
    { apply Bool.not_true_is_false. rewrite <- Hwin. rewrite (fresh_iff hist ctr Hhist Hc). tauto. }
    rewrite F. cbn [negb].
    destruct (reply_error_run C E code_replay msg_replay (s_chk p)) as (n & ok & R & _ & _ & RW).
    rewrite R. split; [apply responded_add; reflexivity|].
    split; [reflexivity|]. split; [apply same_after_stale; [exact Eh|apply stale_keeps, F]|].
    split; [reflexivity|]. intros W; rewrite (RW W); reflexivity.
  Qed.
  Lemma process_replay : refused_after hist ctr ->
    let '(res, s') := srun C E (conn_body C) s in
    (exists t, responded s s' (RsError 5 t)) /\ no_calls s s' /\ same_sessions C s s' /\
    s_in s' = rest /\ (writes_all E -> res = Some true).
  Proof.
    intros Hr. pose proof (process_replay_text Hr) as H. destruct (srun C E (conn_body C) s) as [res s'].
    destruct H as [H1 H2]. split; [exists msg_replay; exact H1|exact H2].
  Qed.

  (** What a fresh counter does to the sessions: only the window of this one. *)
  Definition window_moved (s' : sst) : Prop :=
    known C s' host id = Some {| ses_secret := ses_secret ses;
                                 ses_win := snd (checks new_window (hist ++ [ctr])) |} /\
    forall h i, session_key C h i <> session_key C host id -> known C s' h i = known C s h i.

  Hypothesis Hwf : wf s.
  Lemma window_moved_chk p : s_map s (session_key C host id) = Some p ->
    forall s', s_map s' = s_map s -> s_heap s' = s_heap (s_chk p) -> window_moved s'.
  Proof.
    intros Ep s' Em Eheap. unfold window_moved, known. rewrite Em, Eheap, Ep. split.
    - unfold s_chk; cbn. rewrite Nat.eqb_refl. f_equal. f_equal. rewrite checks_app.
      destruct (checks new_window hist) as [rs w]. cbn [snd] in *. subst w. cbn.
      destruct (check_and_update (ses_win ses) ctr); reflexivity.
    - intros h i Hne. destruct (s_map s (session_key C h i)) as [q|] eqn:Eq; [|reflexivity].
      unfold s_chk; cbn. destruct (Nat.eqb_spec q p) as [->|_]; [|reflexivity].
      exfalso. apply Hne. exact (wf_inj s Hwf _ _ _ Eq Ep).
  Qed.

  Hypothesis Hfresh : ~ refused_after hist ctr.
  Lemma fresh_true : fst (check_and_update (ses_win ses) ctr) = true.
  Proof.
    rewrite <- Hwin. apply fresh_iff; [exact Hhist| |exact Hfresh].
    destruct Hok as (_ & H & _); exact H.
  Qed.
  Variable key : bytes.
  Hypothesis Hkey : new_gcm C (ses_secret ses) = Some key.

  Lemma process_unauthentic_text : gcm_open C key (gcm_nonce dir_c2s ctr) msg = None ->
    let '(res, s') := srun C E (conn_body C) s in
    responded s s' (RsError code_server_error msg_decrypt) /\ no_calls s s' /\ window_moved s' /\
    s_in s' = rest /\ (writes_all E -> res = Some true).
  Proof.
    intros Ho. destruct process_check as (p & Ep & Eh & ->). rewrite fresh_true. cbn [negb].
    cbn [sdo sbind srun sexec]. unfold s_chk at 1. cbn [set_session s_heap]. rewrite Nat.eqb_refl. cbn [ses_secret].
    rewrite Hkey, Ho.
    destruct (reply_error_run C E code_server_error msg_decrypt (s_chk p)) as (n & ok & R & _ & _ & RW).
    rewrite R. split; [apply responded_add; reflexivity|].
    split; [reflexivity|]. split; [apply (window_moved_chk p Ep); reflexivity|]. split; [reflexivity|].
    intros W; rewrite (RW W); reflexivity.
  Qed.

  Lemma process_unauthentic : gcm_open C key (gcm_nonce dir_c2s ctr) msg = None ->
    let '(res, s') := srun C E (conn_body C) s in
    (exists t, responded s s' (RsError 2 t)) /\ no_calls s s' /\ window_moved s' /\
    s_in s' = rest /\ (writes_all E -> res = Some true).
  Proof.
    intros Ho. pose proof (process_unauthentic_text Ho) as H. destruct (srun C E (conn_body C) s) as [res s'].
    destruct H as (H & R). split; [exists msg_decrypt; exact H|exact R].
  Qed.

  Variable pt : bytes.
  Hypothesis Hopen : gcm_open C key (gcm_nonce dir_c2s ctr) msg = Some pt.

  Lemma process_accepted :
    let '(res, s') := srun C E (conn_body C) s in
    (exists p, s_calls s' = s_calls s ++ [(p, ctr, reply, pt)]) /\ window_moved s' /\ s_in s' = rest /\
    exists i, match e_handler E i reply pt with
    | HOk out =>
        if reply
        then let r := RsProcess ctr (gcm_seal C key (gcm_nonce dir_s2c ctr) out) in
             answered s s' r /\ (writes_all E -> responded s s' r /\ res = Some true)
        else silent s s' /\ res = Some true
    | HErr => (exists t, responded s s' (RsError 2 t)) /\ (writes_all E -> res = Some true)
    | HPanic => silent s s' /\ res = None
    end.
  Proof.
    destruct process_check as (p & Ep & Eh & ->). rewrite fresh_true. cbn [negb].
    cbn [sdo sbind srun sexec]. unfold s_chk at 1. cbn [set_session s_heap]. rewrite Nat.eqb_refl. cbn [ses_secret].
    rewrite Hkey, Hopen. cbn [sdo sbind srun sexec].
    set (hr := e_handler E (s_step (s_chk p)) reply pt).
    set (s1 := add_call (tick (s_chk p)) (p, ctr, reply, pt)).
    assert (Wm : forall s', s_map s' = s_map s -> s_heap s' = s_heap (s_chk p) -> window_moved s')
      by (apply window_moved_chk; exact Ep).
    destruct hr as [out| |] eqn:Ehr; unfold hr in Ehr.
    - destruct reply eqn:Erep.
      + cbn [sdo sbind srun sexec].
        set (r := RsProcess ctr (gcm_seal C key (gcm_nonce dir_s2c ctr) out)).
        change (enc_process_resp _) with (enc_response r).
        destruct (write_response_run C E r s1) as (n & ok & _ & _ & [[R RW]|(NW & n2 & ok2 & _ & _ & R)]); rewrite R.
        * split; [exists p; reflexivity|]. split; [apply Wm; reflexivity|]. split; [reflexivity|].
          exists (s_step (s_chk p)). rewrite Ehr. cbv zeta. split; [left; apply responded_add; reflexivity|].
          intros W. split; [apply responded_add; reflexivity|]. rewrite (RW W); reflexivity.
        * split; [exists p; reflexivity|]. split; [apply Wm; reflexivity|]. split; [reflexivity|].
          exists (s_step (s_chk p)). rewrite Ehr. cbv zeta. split; [|intros W; exfalso; exact (NW W)].
          right. exists msg_send, n2. cbn. rewrite <- app_assoc. reflexivity.
      + cbn [srun]. split; [exists p; reflexivity|]. split; [apply Wm; reflexivity|]. split; [reflexivity|].
        exists (s_step (s_chk p)). rewrite Ehr. split; reflexivity.
    - destruct (reply_error_run C E code_server_error msg_handle s1) as (n & ok & R & _ & _ & RW).
      rewrite R. split; [exists p; reflexivity|]. split; [apply Wm; reflexivity|]. split; [reflexivity|].
      exists (s_step (s_chk p)). rewrite Ehr. split; [exists msg_handle; apply responded_add; reflexivity|].
      intros W; rewrite (RW W); reflexivity.
    - cbn [srun]. split; [exists p; reflexivity|]. split; [apply Wm; reflexivity|]. split; [reflexivity|].
      exists (s_step (s_chk p)). rewrite Ehr. split; reflexivity.
  Qed.
End Process.

(** Exactly one response whenever a reply is wanted and the transport works. *)
Lemma process_one_response C (L : CryptoLaws C) E s id ctr msg rest :
  let rq := RqProcess id ctr msg true in
  request_ok rq -> s_in s = enc_request rq ++ rest -> e_quit E (s_step s) = false -> writes_all E ->
  let '(res, s') := srun C E (conn_body C) s in
  (res = Some true /\
   exists r, responded s s' r /\ ((exists c t, r = RsError c t) \/ exists m, r = RsProcess ctr m)) \/
  (res = None /\ silent s s' /\ exists i m, e_handler E i true m = HPanic).
Proof.
  cbv zeta. intros Hok Hin Hq W. rewrite (conn_body_ok C E s _ rest Hok Hin Hq). cbn [after].
  assert (RE : forall c t s1, s_sent s1 = s_sent s ->
    exists s', srun C E (reply_error c t) s1 = (Some true, s') /\ responded s s' (RsError c t)).
  { intros c t s1 Hs. destruct (reply_error_run C E c t s1) as (n & ok & R & _ & _ & RW).
    rewrite R, (RW W). eexists. split; [reflexivity|]. apply responded_add; exact Hs. }
  assert (RE' : forall c t s1, s_sent s1 = s_sent s ->
    let '(res, s') := srun C E (reply_error c t) s1 in
    (res = Some true /\
      exists r, responded s s' r /\ ((exists c t, r = RsError c t) \/ exists m, r = RsProcess ctr m)) \/
    (res = None /\ silent s s' /\ exists i m, e_handler E i true m = HPanic)).
  { intros c t s1 Hs. destruct (RE c t s1 Hs) as (s' & -> & R). left. split; [reflexivity|]. exists (RsError c t). eauto. }
  unfold process_after. cbn [sdo sbind srun sexec]. destruct (e_host E) as [host|]; [|apply RE'; reflexivity].
  cbn [sdo sbind srun sexec new_process_request pr_id pr_counter pr_msg pr_reply].
  set (s0 := set_in (tick s) rest). destruct (s_map s0 _) as [p|]; [|apply RE'; reflexivity].
  cbn [sdo sbind srun sexec]. destruct (check_and_update _ ctr) as [[|] w]; cbn [negb]; [|apply RE'; reflexivity].
  set (s1 := set_session s0 _ _). cbn [sdo sbind srun sexec].
  destruct (new_gcm_total C L (ses_secret (s_heap s1 p))) as (k & -> & _).
  destruct (gcm_open C k (gcm_nonce dir_c2s ctr) msg) as [pt|]; [|apply RE'; reflexivity].
  cbn [sdo sbind srun sexec]. set (s2 := add_call _ _).
  destruct (e_handler E (s_step s1) true pt) as [out| |] eqn:Eh.
  - cbn [sdo sbind srun sexec].
    set (r := RsProcess ctr (gcm_seal C k (gcm_nonce dir_s2c ctr) out)).
    change (enc_process_resp _) with (enc_response r).
    destruct (write_response_run C E r s2) as (n & ok & _ & _ & [[R RW]|(NW & _)]); [|exfalso; exact (NW W)].
    rewrite R, (RW W). left. split; [reflexivity|]. exists r. split; [apply responded_add; reflexivity|].
    right. unfold r. eauto.
  - apply RE'; reflexivity.
  - cbn [srun]. right. split; [reflexivity|]. split; [reflexivity|]. eauto.
Qed.

(** ** Setup *)
Section Setup.
  Variables (C : Crypto) (E : senv) (s : sst) (id pub rest : bytes).
  Hypothesis L : CryptoLaws C.
  Let rq := RqSetup id pub.
  Hypothesis Hok : request_ok rq.
  Hypothesis Hin : s_in s = enc_request rq ++ rest.
  Hypothesis Hq : e_quit E (s_step s) = false.
  Hypothesis Hwf : wf s.

  (** The sessions after a Setup that stored its secret. *)
  Definition established (s' : sst) (host shared : bytes) : Prop :=
    known C s' host id = Some {| ses_secret := shared; ses_win := new_window |} /\
    forall h i, length i = 16%nat -> (h, i) <> (host, id) ->
                known C s' h i = known C s h i \/ collision C h i host id.

  (** Why a Setup is refused, by error code. *)
  Definition setup_reason (c : N) : Prop :=
    (c = 1 /\ ((exists i, e_gen E i = None) \/ exists i sk, e_gen E i = Some sk /\ x_dh C sk pub = None)) \/
    (c = 2 /\ (e_host E = None \/ exists i, e_store E i = false)).

  Lemma setup_spec :
    let '(res, s') := srun C E (conn_body C) s in
    s_in s' = rest /\ no_calls s s' /\
    ((* success *)
     (exists host i sk shared j sig,
        e_host E = Some host /\ e_gen E i = Some sk /\ x_dh C sk pub = Some shared /\
        e_sign E j SHA512 (be_enc 4 44 ++ pkix_x25519 pub ++ be_enc 4 44 ++ pkix_x25519 (x_pub C sk) ++ id) = KOk sig /\
        established s' host shared /\
        answered s s' (RsSetup (x_pub C sk) 4 sig) /\
        (writes_all E -> responded s s' (RsSetup (x_pub C sk) 4 sig) /\ res = Some true)) \/
     (* refused before the session was stored *)
     (same_sessions C s s' /\ (exists c t, responded s s' (RsError c t) /\ setup_reason c) /\
      (writes_all E -> res = Some true)) \/
     (* signing failed *)
     (exists host i sk shared j,
        e_host E = Some host /\ e_gen E i = Some sk /\ x_dh C sk pub = Some shared /\
        established s' host shared /\
        let tr := be_enc 4 44 ++ pkix_x25519 pub ++ be_enc 4 44 ++ pkix_x25519 (x_pub C sk) ++ id in
        ((e_sign E j SHA512 tr = KErr /\ (exists t, responded s s' (RsError 2 t)) /\
          (writes_all E -> res = Some true)) \/
         (e_sign E j SHA512 tr = KPanic /\ silent s s' /\ res = None)))).
  Proof.
    pose proof (conn_body_ok C E s rq rest Hok Hin Hq) as K. rewrite K. cbn [after rq].
    assert (RE : forall c t s1, s_sent s1 = s_sent s -> s_in s1 = rest -> s_calls s1 = s_calls s ->
      same_sessions C s s1 -> setup_reason c ->
      let '(res, s') := srun C E (reply_error c t) s1 in
      s_in s' = rest /\ no_calls s s' /\
      same_sessions C s s' /\ (exists c t, responded s s' (RsError c t) /\ setup_reason c) /\
      (writes_all E -> res = Some true)).
    { intros c t s1 Hs Hi Hc Hss Hcc. destruct (reply_error_run C E c t s1) as (n & ok & R & _ & _ & RW).
      rewrite R. split; [exact Hi|]. split; [exact Hc|]. split; [intros h i; apply Hss|].
      split; [exists c, t; split; [apply responded_add; exact Hs|exact Hcc]|].
      intros W; rewrite (RW W); reflexivity. }
    set (s0 := set_in (tick s) rest). unfold setup_after. cbn [sdo sbind srun sexec].
    destruct (e_gen E (s_step s0)) as [sk|] eqn:Eg.
    2:{ pose proof (RE code_malformed msg_genkey (tick s0) eq_refl eq_refl eq_refl (fun _ _ => eq_refl) (or_introl (conj eq_refl (or_introl (ex_intro _ _ Eg))))) as R.
        match type of R with let '(_, _) := ?x in _ => match goal with |- let '(_, _) := ?y in _ =>
          change y with x; destruct x as [res s'] end end. destruct R as (R1 & R2 & R3). auto. }
    cbn [new_setup_request sr_pub sr_id]. destruct (x_dh C sk pub) as [shared|] eqn:Ed.
    2:{ pose proof (RE code_malformed msg_shared (tick s0) eq_refl eq_refl eq_refl (fun _ _ => eq_refl) (or_introl (conj eq_refl (or_intror (ex_intro _ _ (ex_intro _ _ (conj Eg Ed))))))) as R.
        match type of R with let '(_, _) := ?x in _ => match goal with |- let '(_, _) := ?y in _ =>
          change y with x; destruct x as [res s'] end end. destruct R as (R1 & R2 & R3). auto. }
    cbn [sdo sbind srun sexec]. destruct (e_host E) as [host|] eqn:Eh.
    2:{ pose proof (RE code_server_error msg_host (tick s0) eq_refl eq_refl eq_refl (fun _ _ => eq_refl) (or_intror (conj eq_refl (or_introl Eh)))) as R.
        match type of R with let '(_, _) := ?x in _ => match goal with |- let '(_, _) := ?y in _ =>
          change y with x; destruct x as [res s'] end end. destruct R as (R1 & R2 & R3). auto. }
    cbn [sdo sbind srun sexec]. set (sess := {| ses_secret := shared; ses_win := new_window |}).
    set (s1 := set_next _ _). change (s_next (tick s0)) with (s_next s).
    assert (S1 : same_sessions C s s1).
    { intros h i. unfold known, s1. cbn. destruct (s_map s (session_key C h i)) as [q|] eqn:Eq; [|reflexivity].
      apply (wf_alloc s Hwf) in Eq. destruct (Nat.eqb_spec q (s_next s)); [lia|reflexivity]. }
    destruct (e_store E (s_step s1)) eqn:Est; cbn [negb].
    2:{ pose proof (RE code_server_error msg_store (tick s1) eq_refl eq_refl eq_refl S1 (or_intror (conj eq_refl (or_intror (ex_intro _ _ Est))))) as R.
        match type of R with let '(_, _) := ?x in _ => match goal with |- let '(_, _) := ?y in _ =>
          change y with x; destruct x as [res s'] end end. destruct R as (R1 & R2 & R3). auto. }
    set (s2 := set_map (tick s1) (session_key C host id) (s_next s)).
    assert (S2 : forall s', s_map s' = s_map s2 -> s_heap s' = s_heap s2 -> established s' host shared).
    { intros s' M1 M2. unfold established, known. rewrite M1, M2. split.
      - unfold s2; cbn. rewrite bytes_eqb_refl, Nat.eqb_refl. reflexivity.
      - intros h i Hi Hne. unfold s2; cbn.
        destruct (bytes_eqb_spec (session_key C h i) (session_key C host id)) as [Ek|_].
        + right. destruct Hok as [Hid _].
          destruct (session_key_inj C L h i host id) as [[Eh1 Ei1]|Hc]; [rewrite Hi; symmetry; exact Hid|exact Ek| |exact Hc].
          exfalso; apply Hne; rewrite Eh1, Ei1; reflexivity.
        + left. specialize (S1 h i). unfold known in S1. exact S1. }
    assert (Htr : setup_transcript pub (x_pub C sk) id =
      be_enc 4 44 ++ pkix_x25519 pub ++ be_enc 4 44 ++ pkix_x25519 (x_pub C sk) ++ id).
    { unfold setup_transcript. rewrite !pkix_x25519_len by (apply Hok || apply (x_pub_len C L)). reflexivity. }
    cbn [sdo sbind srun sexec]. rewrite Htr.
    set (tr := be_enc 4 44 ++ _) in *.
    destruct (e_sign E (s_step s2) SHA512 tr) as [sig| |] eqn:Esg.
    - change (new_hash_type SHA512) with (Some 4). cbv iota.
      set (r := RsSetup (x_pub C sk) 4 sig). change (enc_setup_resp _) with (enc_response r).
      destruct (write_response_run C E r (tick s2)) as (n & ok & _ & _ & [[R RW]|(NW & n2 & ok2 & _ & _ & R)]); rewrite R.
      + split; [reflexivity|]. split; [reflexivity|]. left.
        exists host, (s_step s0), sk, shared, (s_step s2), sig. repeat split; auto.
        * apply S2; reflexivity.
        * apply S2; reflexivity.
        * left; apply responded_add; reflexivity.
        * apply responded_add; reflexivity.
        * match goal with W : writes_all E |- _ => rewrite (RW W); reflexivity end.
      + split; [reflexivity|]. split; [reflexivity|]. left.
        exists host, (s_step s0), sk, shared, (s_step s2), sig.
        split; [auto|]. split; [auto|]. split; [auto|]. split; [auto|]. split; [apply S2; reflexivity|].
        split; [|intros W; exfalso; exact (NW W)]. right. exists msg_send, n2. cbn. rewrite <- app_assoc. reflexivity.
    - destruct (reply_error_run C E code_server_error msg_sign (tick s2)) as (n & ok & R & _ & _ & RW). rewrite R.
      split; [reflexivity|]. split; [reflexivity|]. right; right.
      exists host, (s_step s0), sk, shared, (s_step s2).
      split; [auto|]. split; [auto|]. split; [auto|]. split; [apply S2; reflexivity|]. cbv zeta. left.
      split; [exact Esg|]. split; [exists msg_sign; apply responded_add; reflexivity|].
      intros W; rewrite (RW W); reflexivity.
    - cbn [srun]. split; [reflexivity|]. split; [reflexivity|]. right; right.
      exists host, (s_step s0), sk, shared, (s_step s2).
      split; [auto|]. split; [auto|]. split; [auto|]. split; [apply S2; reflexivity|]. cbv zeta. right.
      split; [exact Esg|]. split; reflexivity.
  Qed.
End Setup.
