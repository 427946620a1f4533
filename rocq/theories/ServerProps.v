From Verif Require Import Bytes BytesProofs Parser ParserProofs Crypto Kdf Wire WireProofs WireSeq WireExtra
  Replay SpecReplay ReplayProofs Base64 Base64Proofs Server ServerSeq SpecServer ServerProofs.

(** ** Facts about parsed requests *)
Lemma run_pread_len n i e b i' : run (pread n) i e = (inr b, i') -> lenN b = n.
Proof.
  unfold pread; cbn [run]. unfold fl_read. destruct (N.leb_spec n (lenN i)); cbn [run].
  - intros [= <- _]. rewrite takeN_len. lia.
  - discriminate.
Qed.
Lemma lenN_length (b : bytes) n : lenN b = N.of_nat n -> length b = n.
Proof. unfold lenN. lia. Qed.
Lemma be_dec_lt_len (b : bytes) n : lenN b = n -> be_dec b < 256 ^ n.
Proof. intros <-. pose proof (be_dec_acc_bound b 0) as H. rewrite N.mul_1_l in H. exact H. Qed.

Lemma parsed_process rc i e m i' : run (parse_process_req rc) i e = (inr m, i') ->
  length (pr_id m) = 16%nat /\ pr_counter m < two64 /\ lenN (pr_msg m) <= max_message_size.
Proof.
  unfold parse_process_req. rewrite run_bind.
  destruct (run pcopy1 i e) as [[er|f] i1]; [discriminate|]. rewrite run_bind.
  destruct (run (pread 16) i1 e) as [[er|id] i2] eqn:E1; [discriminate|]. rewrite run_bind.
  destruct (run (pread 8) i2 e) as [[er|c] i3] eqn:E2; [discriminate|]. rewrite run_bind.
  destruct (run (pread 8) i3 e) as [[er|sz] i4] eqn:E3; [discriminate|].
  destruct (N.ltb_spec max_message_size (be_dec sz)); [discriminate|].
  rewrite run_bind, run_palloc. cbv iota. rewrite run_bind.
  destruct (run (pread (be_dec sz)) i4 e) as [[er|msg] i5] eqn:E4; [discriminate|].
  cbn [run]. intros [= <- _]. cbn [pr_id pr_counter pr_msg].
  apply run_pread_len in E1, E2, E3, E4. split; [apply lenN_length; exact E1|].
  split; [|lia]. apply be_dec_lt_len in E2. exact E2.
Qed.
Lemma parsed_setup C rc i e m i' : run (parse_setup_req C rc) i e = (inr m, i') ->
  length (sr_id m) = 16%nat.
Proof.
  unfold parse_setup_req. rewrite run_bind.
  destruct (run (pread 16) i e) as [[er|id] i2] eqn:E1; [discriminate|]. rewrite run_bind.
  destruct (run (pread 4) i2 e) as [[er|sz] i3] eqn:E2; [discriminate|].
  destruct (max_key_size <? be_dec sz); [discriminate|]. rewrite run_bind, run_palloc. cbv iota. rewrite run_bind.
  destruct (run (pread (be_dec sz)) i3 e) as [[er|raw] i4] eqn:E4; [discriminate|]. rewrite run_bind.
  destruct (run (parse_ecdh C raw) i4 e) as [[er|k] i5]; [discriminate|].
  cbn [run]. intros [= <- _]. cbn [sr_id]. apply run_pread_len in E1. apply lenN_length; exact E1.
Qed.

(** ** The table *)
Lemma session_key_inj C (L : CryptoLaws C) h1 i1 h2 i2 :
  length i1 = length i2 -> session_key C h1 i1 = session_key C h2 i2 ->
  (h1 = h2 /\ i1 = i2) \/ collision C h1 i1 h2 i2.
Proof.
  intros Hl E. unfold session_key in E. apply base64_inj_len in E; [|rewrite !(sha256_len C L); reflexivity].
  destruct (list_eq_dec Byte.byte_eq_dec (h1 ++ i1) (h2 ++ i2)) as [H|H]; [left|right; split; assumption].
  assert (Hh : length h1 = length h2).
  { apply (f_equal (@length _)) in H. rewrite !app_length in H. lia. }
  split; [apply (f_equal (firstn (length h1))) in H|apply (f_equal (skipn (length h1))) in H].
  - rewrite firstn_app_exact, Hh, firstn_app_exact in H. exact H.
  - rewrite skipn_app_exact, Hh, skipn_app_exact in H. exact H.
Qed.

(** ** Well-formed states *)
Lemma wf_same s s' : wf s -> s_map s' = s_map s -> s_heap s' = s_heap s -> s_next s' = s_next s -> wf s'.
Proof. intros [A B W] H1 H2 H3. constructor; rewrite ?H1, ?H2, ?H3; assumption. Qed.

Lemma wf_check s p c : wf s -> c < two64 ->
  wf (set_session s p {| ses_secret := ses_secret (s_heap s p);
                         ses_win := snd (check_and_update (ses_win (s_heap s p)) c) |}).
Proof.
  intros [A B W] Hc. constructor; cbn; [exact A|exact B|].
  intros q. destruct (Nat.eqb_spec q p) as [->|_]; [|apply W].
  destruct (W p) as (hist & Hh & Hw). exists (hist ++ [c]). split.
  - apply Forall_app. split; [exact Hh|]. constructor; [exact Hc|constructor].
  - rewrite checks_app. destruct (checks new_window hist) as [rs w]. cbn [snd] in Hw. subst w. cbn.
    destruct (check_and_update (ses_win (s_heap s p)) c) as [r w]. reflexivity.
Qed.
Lemma wf_new s sec : wf s ->
  wf (set_next (set_session s (s_next s) {| ses_secret := sec; ses_win := new_window |}) (S (s_next s))).
Proof.
  intros [A B W]. constructor; cbn.
  - intros k p H. apply A in H. lia.
  - exact B.
  - intros q. destruct (Nat.eqb_spec q (s_next s)); [|apply W]. exists []. split; [constructor|reflexivity].
Qed.
Lemma wf_store s k p : wf s -> (p < s_next s)%nat -> (forall k', s_map s k' <> Some p) -> wf (set_map s k p).
Proof.
  intros [A B W] Hp Hf. constructor; cbn; [| |exact W].
  - intros k' q. destruct (bytes_eqb k' k); [intros [= <-]; exact Hp|apply A].
  - intros k1 k2 q. destruct (bytes_eqb_spec k1 k) as [->|N1], (bytes_eqb_spec k2 k) as [->|N2].
    + reflexivity.
    + intros [= <-] H. exfalso; exact (Hf _ H).
    + intros H [= <-]. exfalso; exact (Hf _ H).
    + apply B.
Qed.

(** Preservation, program by program. *)
Definition WF {A} (C : Crypto) (E : senv) (p : sprog A) : Prop :=
  forall s, wf s -> wf (snd (srun C E p s)).
Definition touches_sessions {R} (e : seff R) : bool :=
  match e with SNewSession _ | SStore _ _ | SCheck _ _ => true | _ => false end.

Lemma WF_ret {A} C E (a : A) : WF C E (SRet a). Proof. intros s H; exact H. Qed.
Lemma WF_panic {A} C E : WF C E (@SPanic A). Proof. intros s H; exact H. Qed.
Lemma wf_exec {R} C E (e : seff R) s : touches_sessions e = false -> wf s -> wf (snd (sexec C E e s)).
Proof.
  destruct e; intros H; try discriminate H; cbn [sexec]; intros W.
  - destruct (fl_read n (s_in s) (e_end E)) as [r i]; apply (wf_same s); auto.
  - destruct (fl_copy n (s_in s) (e_end E)) as [r i]; apply (wf_same s); auto.
  - exact W.
  - destruct (e_write E (s_step s) b) as [n err]; apply (wf_same s); auto.
  - exact W.
  - apply (wf_same s); auto.
  - exact W.
  - exact W.
  - apply (wf_same s); auto.
  - exact W.
  - apply (wf_same s); auto.
  - apply (wf_same s); auto.
  - apply (wf_same s); auto.
Qed.
Lemma WF_do {A R} C E (e : seff R) (k : R -> sprog A) :
  touches_sessions e = false -> (forall r, WF C E (k r)) -> WF C E (SDo e k).
Proof.
  intros H Hk s W. cbn [srun]. pose proof (wf_exec C E e s H W) as W'.
  destruct (sexec C E e s) as [r s']. apply Hk, W'.
Qed.
Lemma WF_check {A} C E p c (k : bool -> sprog A) :
  c < two64 -> (forall r, WF C E (k r)) -> WF C E (SDo (SCheck p c) k).
Proof.
  intros H Hk s W. cbn [srun sexec]. pose proof (wf_check s p c W H) as W'.
  destruct (check_and_update _ c) as [r w]. apply Hk, W'.
Qed.
Lemma WF_setup {A} C E sec key (k : nat -> bool -> sprog A) :
  (forall p r, WF C E (k p r)) ->
  WF C E (SDo (SNewSession sec) (fun p => SDo (SStore key p) (fun r => k p r))).
Proof.
  intros Hk s W. cbn [srun sexec]. pose proof (wf_new s sec W) as W'.
  set (s1 := set_next _ _) in *. change (s_step s1) with (s_step s).
  destruct (e_store E (s_step s)).
  - apply Hk. apply (wf_same (set_map s1 key (s_next s))); auto.
    apply wf_store; [exact W'|cbn; lia|]. intros k' H. cbn in H. apply (wf_alloc s W) in H. lia.
  - apply Hk. apply (wf_same s1); auto.
Qed.
Lemma WF_lift {A B} C E (p : parser A) (f : perr + A -> sprog B) :
  (forall i r, fst (run p i (e_end E)) = r -> WF C E (f r)) -> WF C E (sbind (slift p) f).
Proof.
  intros H s W. rewrite srun_bind, srun_lift. apply (H (s_in s)); [reflexivity|]. apply (wf_same s); auto.
Qed.
Lemma WF_bind {A B} C E (p : sprog A) (f : A -> sprog B) :
  WF C E p -> (forall a, WF C E (f a)) -> WF C E (sbind p f).
Proof.
  intros Hp Hf s W. rewrite srun_bind. specialize (Hp s W).
  destruct (srun C E p s) as [[a|] s']; [apply Hf|]; exact Hp.
Qed.

Ltac wfs := repeat match goal with
  | |- WF _ _ (SRet _) => apply WF_ret
  | |- WF _ _ SPanic => apply WF_panic
  | |- WF _ _ (sbind (sdo ?e) _) => cbn [sbind sdo]
  | |- WF _ _ (SDo ?e _) => apply WF_do; [reflexivity|intros]
  | |- WF _ _ (reply_error _ _) => unfold reply_error, write_error_response
  | |- WF _ _ (write_error_response _) => unfold write_error_response
  | |- WF _ _ (write_response _) => unfold write_response
  | |- WF _ _ (match ?x with _ => _ end) => destruct x
  | |- WF _ _ (let '_ := _ in _) => cbv zeta
  end.
Lemma WF_process C E m : pr_counter m < two64 -> WF C E (process_after C m).
Proof.
  intros H. unfold process_after. wfs.
  apply WF_check; [exact H|]. intros. wfs.
Qed.
Lemma WF_setup_after C E m : WF C E (setup_after C m).
Proof.
  unfold setup_after.
  wfs. apply (WF_setup C E _ _ (fun p ok => _)). intros. wfs.
Qed.
Lemma WF_conn C E : WF C E (conn_body C).
Proof.
  unfold conn_body, one_request. wfs. apply WF_lift. intros i [er|rc] _; [apply WF_ret|]. unfold handle. wfs.
  - unfold setup_handler. apply WF_lift. intros i' [er|m] _; [wfs|apply WF_setup_after].
  - unfold process_handler. apply WF_lift. intros i' [er|m] Hm; [wfs|]. apply WF_process.
    destruct (run (parse_process_req rc) i' (e_end E)) as [r i2] eqn:Er. cbn in Hm; subst r.
    eapply parsed_process, Er.
  - unfold fetch_key_handler. wfs.
Qed.
Lemma WF_serve C E fuel : forall s, wf s -> wf (snd (serve C E fuel s)).
Proof.
  induction fuel as [|f IH]; intros s W; cbn [serve]; [exact W|].
  pose proof (WF_conn C E s W) as W'. destruct (srun C E (conn_body C) s) as [[[|]|] s']; auto.
Qed.

Definition sst0 (input : bytes) : sst :=
  {| s_in := input; s_step := 0; s_sent := []; s_map := fun _ => None;
     s_heap := fun _ => {| ses_secret := []; ses_win := new_window |}; s_next := 0; s_calls := [] |}.
Lemma wf_init i : wf (sst0 i).
Proof.
  constructor; cbn; try discriminate. intros p. exists []. split; [constructor|reflexivity].
Qed.
