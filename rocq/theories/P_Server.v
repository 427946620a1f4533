(** Properties C28, C31-C41: what the server does with one connection, for every
    behaviour of the transport, the application, the key manager and the random
    source ([senv]) and every state of the server ([sst]). *)
From Verif Require Import Bytes Parser Crypto Kdf Wire WireSeq Replay SpecReplay Toy Server ServerSeq SpecServer
  ServerProofs ServerProps ServerProps2 ServerProps3 OpenProofs ServerExamples ServerForge.

(** States meant by [wf] are all the states that arise. *)
Theorem C28_states_start : forall input, wf (sst0 input).
Proof. exact wf_init. Qed.
Print Assumptions C28_states_start.
Theorem C28_states_stay : forall C E fuel s, wf s -> wf (snd (serve C E fuel s)).
Proof. exact WF_serve. Qed.
Print Assumptions C28_states_stay.

Theorem C28_unknown_session : forall C E s host id msg rest ctr reply,
  request_ok (RqProcess id ctr msg reply) ->
  s_in s = enc_request (RqProcess id ctr msg reply) ++ rest ->
  e_quit E (s_step s) = false -> e_host E = Some host ->
  known C s host id = None ->
  let '(res, s') := srun C E (conn_body C) s in
  (exists t, responded s s' (RsError 3 t)) /\ no_calls s s' /\ same_sessions C s s' /\
  s_in s' = rest /\ (writes_all E -> res = Some true).
Proof. exact process_unknown. Qed.
Print Assumptions C28_unknown_session.
Example C28_example :
  let id := repeat x08 16 in
  let s := ex_s (enc_request (RqProcess id 1 [x41] true) ++ [x11]) in
  known toy s ex_host id = None /\ known toy s ex_host ex_id <> None /\
  fst (srun toy ex_E (conn_body toy) s) = Some true.
Proof. vm_compute. repeat split; discriminate. Qed.

Theorem C31_replay_refused : forall C E s host id msg rest ctr reply,
  request_ok (RqProcess id ctr msg reply) ->
  s_in s = enc_request (RqProcess id ctr msg reply) ++ rest ->
  e_quit E (s_step s) = false -> e_host E = Some host ->
  forall ses hist, known C s host id = Some ses ->
  Forall (fun c => c < 2 ^ 64) hist -> snd (checks new_window hist) = ses_win ses ->
  refused_after hist ctr ->
  let '(res, s') := srun C E (conn_body C) s in
  (exists t, responded s s' (RsError 5 t)) /\ no_calls s s' /\ same_sessions C s s' /\
  s_in s' = rest /\ (writes_all E -> res = Some true).
Proof. exact process_replay. Qed.
Print Assumptions C31_replay_refused.
(** Every session of an arising state has such a history. *)
Theorem C31_history_exists : forall C s host id ses, wf s -> known C s host id = Some ses ->
  exists hist, Forall (fun c => c < 2 ^ 64) hist /\ snd (checks new_window hist) = ses_win ses.
Proof. exact known_history. Qed.
Print Assumptions C31_history_exists.
Example C31_example :
  let s := ex_used (enc_request (ex_process 5 [x41] true)) in
  (exists ses, known toy s ex_host ex_id = Some ses /\ snd (checks new_window [5]) = ses_win ses) /\
  refused_after [5] 5 /\ ~ refused_after [5] 6.
Proof.
  split; [|split].
  - eexists. split; vm_compute; reflexivity.
  - right; left. left. reflexivity.
  - intros [H|[[H|[]]|H]]; try discriminate H. vm_compute in H. apply H. reflexivity.
Qed.

(** Refuted: a forged request that authenticates under no key, with the highest
    counter, makes the server refuse every authentic request from then on. *)
Theorem C32_forgery_has_no_effect_refuted : forall C, CryptoLaws C -> forall E s host id ses hist c msg reply,
  wf s -> e_host E = Some host -> (forall i, e_quit E i = false) ->
  known C s host id = Some ses -> Forall (fun x => x < 2 ^ 64) hist ->
  snd (checks new_window hist) = ses_win ses ->
  ~ refused_after hist (2 ^ 64 - 1) ->
  request_ok (RqProcess id c msg reply) -> c + 64 <= 2 ^ 64 - 1 ->
  let forged := RqProcess id (2 ^ 64 - 1) [] false in
  let s1 := snd (srun C E (conn_body C) (set_in s (enc_request forged))) in
  let '(_, s2) := srun C E (conn_body C) (set_in s1 (enc_request (RqProcess id c msg reply))) in
  no_calls s s1 /\ no_calls s1 s2 /\ exists t, responded s1 s2 (RsError 5 t).
Proof. exact forged_blocks. Qed.
Print Assumptions C32_forgery_has_no_effect_refuted.
Theorem C32_forged_never_opens : forall C, CryptoLaws C -> forall k n, gcm_open C k n [] = None.
Proof. exact empty_never_opens. Qed.
Print Assumptions C32_forged_never_opens.
(** The same request is delivered without the forgery and lost with it. *)
Theorem C32_lost_delivery_refuted :
  let forged := RqProcess ex_id (2 ^ 64 - 1) [] false in
  let good := ex_process 1 [x41] true in
  let run_ s r := snd (srun toy ex_E (conn_body toy) (set_in s (enc_request r))) in
  let s := ex_s [] in
  deliveries s (run_ s good) = [(1, true, [x41])] /\
  deliveries s (run_ (run_ s forged) good) = [].
Proof. exact forged_example. Qed.
Print Assumptions C32_lost_delivery_refuted.
(** What does hold: a request that does not decrypt reaches no handler and
    changes nothing but the replay window of the session it names. Missing: that
    it leaves the window alone. *)
Theorem C32_unauthentic_partial : forall C E s host id msg rest ctr reply,
  request_ok (RqProcess id ctr msg reply) ->
  s_in s = enc_request (RqProcess id ctr msg reply) ++ rest ->
  e_quit E (s_step s) = false -> e_host E = Some host ->
  forall ses hist, known C s host id = Some ses ->
  Forall (fun c => c < 2 ^ 64) hist -> snd (checks new_window hist) = ses_win ses ->
  wf s -> ~ refused_after hist ctr ->
  forall key, new_gcm C (ses_secret ses) = Some key ->
  gcm_open C key (x00 :: repeat x00 3 ++ be_enc 8 ctr) msg = None ->
  let '(res, s') := srun C E (conn_body C) s in
  (exists t, responded s s' (RsError 2 t)) /\ no_calls s s' /\
  (known C s' host id = Some {| ses_secret := ses_secret ses; ses_win := snd (checks new_window (hist ++ [ctr])) |} /\
   forall h i, session_key C h i <> session_key C host id -> known C s' h i = known C s h i) /\
  s_in s' = rest /\ (writes_all E -> res = Some true).
Proof. exact process_unauthentic. Qed.
Print Assumptions C32_unauthentic_partial.

(** A fresh, authentic Process request. *)
Theorem C33_accepted_request : forall C E s host id msg rest ctr reply,
  request_ok (RqProcess id ctr msg reply) ->
  s_in s = enc_request (RqProcess id ctr msg reply) ++ rest ->
  e_quit E (s_step s) = false -> e_host E = Some host ->
  forall ses hist, known C s host id = Some ses ->
  Forall (fun c => c < 2 ^ 64) hist -> snd (checks new_window hist) = ses_win ses ->
  wf s -> ~ refused_after hist ctr ->
  forall key, new_gcm C (ses_secret ses) = Some key ->
  forall pt, gcm_open C key (x00 :: repeat x00 3 ++ be_enc 8 ctr) msg = Some pt ->
  let '(res, s') := srun C E (conn_body C) s in
  (exists p, s_calls s' = s_calls s ++ [(p, ctr, reply, pt)]) /\
  (known C s' host id = Some {| ses_secret := ses_secret ses; ses_win := snd (checks new_window (hist ++ [ctr])) |} /\
   forall h i, session_key C h i <> session_key C host id -> known C s' h i = known C s h i) /\
  s_in s' = rest /\
  exists i, match e_handler E i reply pt with
  | HOk out =>
      if reply
      then let r := RsProcess ctr (gcm_seal C key (x01 :: repeat x00 3 ++ be_enc 8 ctr) out) in
           answered s s' r /\ (writes_all E -> responded s s' r /\ res = Some true)
      else silent s s' /\ res = Some true
  | HErr => (exists t, responded s s' (RsError 2 t)) /\ (writes_all E -> res = Some true)
  | HPanic => silent s s' /\ res = None
  end.
Proof. exact process_accepted. Qed.
Print Assumptions C33_accepted_request.
Theorem C33_one_response : forall C, CryptoLaws C -> forall E s id ctr msg rest,
  let rq := RqProcess id ctr msg true in
  request_ok rq -> s_in s = enc_request rq ++ rest -> e_quit E (s_step s) = false -> writes_all E ->
  let '(res, s') := srun C E (conn_body C) s in
  (res = Some true /\
   exists r, responded s s' r /\ ((exists c t, r = RsError c t) \/ exists m, r = RsProcess ctr m)) \/
  (res = None /\ silent s s' /\ exists i m, e_handler E i true m = HPanic).
Proof. exact process_one_response. Qed.
Print Assumptions C33_one_response.
Example C33_example :
  let s := ex_s (enc_request (ex_process 5 [x41] true) ++ [x11]) in
  (exists ses, known toy s ex_host ex_id = Some ses /\ snd (checks new_window []) = ses_win ses /\
               new_gcm toy (ses_secret ses) = Some ex_key) /\
  ~ refused_after [] 5 /\ wf s /\
  (exists msg, ex_process 5 [x41] true = RqProcess ex_id 5 msg true /\
               gcm_open toy ex_key (x00 :: repeat x00 3 ++ be_enc 8 5) msg = Some [x41]) /\
  fst (srun toy ex_E (conn_body toy) s) = Some true.
Proof.
  split; [eexists; split; [vm_compute; reflexivity|split; vm_compute; reflexivity]|].
  split; [intros [H|[[]|H]]; [discriminate H|vm_compute in H; apply H; reflexivity]|].
  split; [apply ex_s_wf|]. split; [eexists; split; [reflexivity|vm_compute; reflexivity]|vm_compute; reflexivity].
Qed.

(** Whatever happens, a Setup either succeeds, changing exactly one session, or is
    answered with an error whose code tells why, or signing failed (see C35). *)
Theorem C34_setup : forall C E s id pub rest, CryptoLaws C ->
  request_ok (RqSetup id pub) -> s_in s = enc_request (RqSetup id pub) ++ rest ->
  e_quit E (s_step s) = false -> wf s ->
  let '(res, s') := srun C E (conn_body C) s in
  s_in s' = rest /\ no_calls s s' /\
  ((exists host i sk shared j sig,
      e_host E = Some host /\ e_gen E i = Some sk /\ x_dh C sk pub = Some shared /\
      e_sign E j SHA512 (be_enc 4 44 ++ pkix_x25519 pub ++ be_enc 4 44 ++ pkix_x25519 (x_pub C sk) ++ id) = KOk sig /\
      (known C s' host id = Some {| ses_secret := shared; ses_win := new_window |} /\
       forall h i, length i = 16%nat -> (h, i) <> (host, id) ->
         known C s' h i = known C s h i \/ collision C h i host id) /\
      answered s s' (RsSetup (x_pub C sk) 4 sig) /\
      (writes_all E -> responded s s' (RsSetup (x_pub C sk) 4 sig) /\ res = Some true)) \/
   (same_sessions C s s' /\
    (exists c t, responded s s' (RsError c t) /\
       ((c = 1 /\ ((exists i, e_gen E i = None) \/ exists i sk, e_gen E i = Some sk /\ x_dh C sk pub = None)) \/
        (c = 2 /\ (e_host E = None \/ exists i, e_store E i = false)))) /\
    (writes_all E -> res = Some true)) \/
   (exists host i sk shared j,
      e_host E = Some host /\ e_gen E i = Some sk /\ x_dh C sk pub = Some shared /\
      (known C s' host id = Some {| ses_secret := shared; ses_win := new_window |} /\
       forall h i, length i = 16%nat -> (h, i) <> (host, id) ->
         known C s' h i = known C s h i \/ collision C h i host id) /\
      let tr := be_enc 4 44 ++ pkix_x25519 pub ++ be_enc 4 44 ++ pkix_x25519 (x_pub C sk) ++ id in
      ((e_sign E j SHA512 tr = KErr /\ (exists t, responded s s' (RsError 2 t)) /\
        (writes_all E -> res = Some true)) \/
       (e_sign E j SHA512 tr = KPanic /\ silent s s' /\ res = None)))).
Proof. exact setup_spec. Qed.
Print Assumptions C34_setup.
Theorem C34_setup_succeeds : forall C, CryptoLaws C -> forall E s id pub rest host,
  wf s -> request_ok (RqSetup id pub) -> e_quit E (s_step s) = false ->
  s_in s = enc_request (RqSetup id pub) ++ rest ->
  e_host E = Some host -> (forall i, exists sk, e_gen E i = Some sk /\ x_dh C sk pub <> None) ->
  (forall i, e_store E i = true) -> (forall i h m, exists sig, e_sign E i h m = KOk sig) -> writes_all E ->
  let '(res, s') := srun C E (conn_body C) s in
  res = Some true /\ exists i sk sig, e_gen E i = Some sk /\ responded s s' (RsSetup (x_pub C sk) 4 sig).
Proof. exact setup_succeeds. Qed.
Print Assumptions C34_setup_succeeds.
Example C34_example :
  request_ok ex_setup /\ wf (sst0 (enc_request ex_setup)) /\ writes_all ex_E /\
  (forall i, exists sk, e_gen ex_E i = Some sk /\ x_dh toy sk (x_pub toy ex_csk) <> None) /\
  known toy (ex_s []) ex_host ex_id = Some {| ses_secret := ex_secret; ses_win := new_window |}.
Proof.
  split; [split; reflexivity|]. split; [apply wf_init|]. split; [intros i b; split; [apply N.le_refl|reflexivity]|].
  split; [intros i; exists ex_ssk; split; [reflexivity|vm_compute; discriminate]|vm_compute; reflexivity].
Qed.

(** Refuted: whenever signing fails the client is told so, yet its session is
    replaced by one the client does not know. *)
Theorem C35_refused_setup_changes_nothing_refuted : forall C, CryptoLaws C -> forall E s id pub rest host,
  wf s -> request_ok (RqSetup id pub) -> e_quit E (s_step s) = false ->
  s_in s = enc_request (RqSetup id pub) ++ rest -> e_host E = Some host ->
  (forall i, exists sk, e_gen E i = Some sk /\ x_dh C sk pub <> None) -> (forall i, e_store E i = true) ->
  (forall i h m, e_sign E i h m = KErr) ->
  (forall ses, known C s host id = Some ses -> ses_win ses <> new_window) ->
  let '(res, s') := srun C E (conn_body C) s in
  (exists t, responded s s' (RsError 2 t)) /\ ~ same_sessions C s s' /\
  exists shared, known C s' host id = Some {| ses_secret := shared; ses_win := new_window |}.
Proof. exact setup_refused_changes. Qed.
Print Assumptions C35_refused_setup_changes_nothing_refuted.
Example C35_refused_example : let s := ex_used (enc_request ex_setup) in
  wf s /\ request_ok ex_setup /\ (exists ses, known toy s ex_host ex_id = Some ses /\ ses_win ses <> new_window) /\
  (forall i, exists sk, e_gen (ex_env (HOk []) KErr) i = Some sk /\ x_dh toy sk (x_pub toy ex_csk) <> None) /\
  forall i h m, e_sign (ex_env (HOk []) KErr) i h m = KErr.
Proof. exact setup_refused_example. Qed.
(** Missing from the full statement: failures of signing. *)
Theorem C35_refused_setup_partial : forall C, CryptoLaws C -> forall E s id pub rest,
  wf s -> request_ok (RqSetup id pub) -> e_quit E (s_step s) = false ->
  s_in s = enc_request (RqSetup id pub) ++ rest ->
  (forall i h m, exists sig, e_sign E i h m = KOk sig) ->
  let '(res, s') := srun C E (conn_body C) s in
  (exists c t, responded s s' (RsError c t)) -> same_sessions C s s'.
Proof. exact setup_refused_partial. Qed.
Print Assumptions C35_refused_setup_partial.
Example C35_example :
  let s := ex_used (enc_request (RqSetup ex_id (repeat x00 32))) in
  x_dh toy ex_ssk (repeat x00 32) = None /\ fst (srun toy ex_E (conn_body toy) s) = Some true /\
  known toy (snd (srun toy ex_E (conn_body toy) s)) ex_host ex_id = known toy s ex_host ex_id.
Proof. vm_compute. auto. Qed.

(** At any moment of a connection, the octets on the wire are whole responses,
    followed by a proper prefix of one only if the connection was closed. *)
Theorem C36_framing : forall C E fuel s,
  let '(f, s') := serve C E fuel s in
  exists l, s_sent s' = s_sent s ++ l /\
  exists rs cut, wire l = concat (map enc_response rs) ++ cut /\
    (cut = [] \/ ((match f with Closed => true | _ => false end) = true /\
                  exists r more, enc_response r = cut ++ more /\ more <> [])).
Proof. exact serve_framed. Qed.
Print Assumptions C36_framing.
Example C36_example :
  let E := {| e_host := Some ex_host; e_end := EndEOF;
              e_write := fun i b => if Nat.eqb i 1 then (lenN b, None) else (3, Some WOther);
              e_gen := fun _ => None; e_store := fun _ => true; e_handler := fun _ _ _ => HErr;
              e_sign := fun _ _ _ => KErr; e_fetch := fun _ => KErr; e_quit := fun _ => false |} in
  let '(f, s') := serve toy E 9 (sst0 [x11; x14; x11]) in
  f = Closed /\ map snd (s_sent s') = [1; 3] /\ wire (s_sent s') = [x80; x00; x00; x00].
Proof. vm_compute. auto. Qed.

Theorem C37_pipelining : forall C E rs, Forall request_ok rs -> forall f s rest,
  let x := serve C E (length rs + f) (set_in s (concat (map enc_request rs) ++ rest)) in
  match one_by_one C E rs s with
  | (Some true, s') => x = serve C E f (set_in s' rest) /\ (rs <> [] -> s_in s' = [])
  | (Some false, s') => fst x = Closed /\ same_but_input s' (snd x)
  | (None, s') => fst x = Panicked /\ same_but_input s' (snd x)
  end.
Proof. exact pipelining. Qed.
Print Assumptions C37_pipelining.
(** While the network works and nothing panics, no request of version 1, well-formed
    or not, ends the connection: the whole sequence is handled. *)
Theorem C37_all_handled : forall C E, writes_all E -> no_panics E ->
  forall rs, (forall n, e_quit E n = false) -> forall s, fst (one_by_one C E rs s) = Some true.
Proof. exact all_answered. Qed.
Print Assumptions C37_all_handled.
Theorem C37_stays_open : forall C E, writes_all E -> no_panics E ->
  forall s b i, e_quit E (s_step s) = false -> s_in s = b :: i -> b2n b / 16 = 1 ->
  fst (srun C E (conn_body C) s) = Some true.
Proof. exact stays_open. Qed.
Print Assumptions C37_stays_open.
(** The loop itself always ends when the input does. *)
Theorem C37_connection_ends : forall C E fuel s, (length (s_in s) < fuel)%nat -> fst (serve C E fuel s) <> OutOfFuel.
Proof. exact serve_ends. Qed.
Print Assumptions C37_connection_ends.
Example C37_example :
  let rs := [RqHello; ex_process 5 [x41] true; ex_process 5 [x41] true; RqFetchKey; ex_process 4 [x42] false] in
  Forall request_ok rs /\
  (let '(f, s') := serve_conn toy ex_E (ex_s (concat (map enc_request rs))) in
   f = Closed /\ length (s_sent s') = 5%nat /\ length (s_calls s') = 2%nat).
Proof.
  cbv zeta. split; [repeat constructor; try reflexivity; vm_compute; discriminate|vm_compute; auto].
Qed.

Example C37_works_example : writes_all ex_E /\ no_panics ex_E /\ forall n, e_quit ex_E n = false.
Proof. repeat split; try discriminate; apply N.le_refl. Qed.

Theorem C38_other_versions : forall C E s b i,
  e_quit E (s_step s) = false -> s_in s = b :: i -> b2n b / 16 <> 1 ->
  exists s', srun C E (conn_body C) s = (Some false, s') /\
    (s_sent s' = s_sent s /\ s_calls s' = s_calls s /\ s_map s' = s_map s /\ s_heap s' = s_heap s).
Proof. exact other_version. Qed.
Print Assumptions C38_other_versions.
Theorem C38_other_actions : forall C E s b i,
  e_quit E (s_step s) = false -> s_in s = b :: i -> b2n b / 16 = 1 -> ~ (1 <= b2n b mod 16 <= 4) ->
  exists s', srun C E (conn_body C) s = (Some true, s') /\
    (s_sent s' = s_sent s /\ s_calls s' = s_calls s /\ s_map s' = s_map s /\ s_heap s' = s_heap s) /\
    s_in s' = i.
Proof. exact other_action. Qed.
Print Assumptions C38_other_actions.
Example C38_example : b2n x23 / 16 <> 1 /\ b2n x15 / 16 = 1 /\ ~ (1 <= b2n x15 mod 16 <= 4).
Proof. cbn. repeat split; try discriminate. intros [_ H]; apply H; reflexivity. Qed.

(** Refuted: no response at all is sent to any unsupported version. *)
Theorem C39_version_answered_refuted : forall C E s b i,
  e_quit E (s_step s) = false -> s_in s = b :: i -> b2n b / 16 <> 1 ->
  ~ exists t, responded s (snd (srun C E (conn_body C) s)) (RsError 4 t).
Proof. exact version_unanswered. Qed.
Print Assumptions C39_version_answered_refuted.

(** Refuted: the announced content of a rejected Setup is executed as requests. *)
Theorem C40_not_reinterpreted_refuted : forall C E s id n r rest, length id = 16%nat ->
  2 ^ 16 < n -> n < 2 ^ 32 -> lenN (enc_request r ++ rest) = n -> request_ok r ->
  (forall i, e_quit E i = false) -> writes_all E ->
  s_in s = [x12] ++ id ++ be_enc 4 n ++ enc_request r ++ rest ->
  exists s1, srun C E (conn_body C) s = (Some true, s1) /\ (exists t, responded s s1 (RsError 1 t)) /\
    no_calls s s1 /\ same_sessions C s s1 /\
    forall f, serve C E (S (S f)) s =
      match srun C E (conn_body C) (set_in s1 (enc_request r)) with
      | (Some true, s2) => serve C E f (set_in s2 rest)
      | (Some false, s2) => (Closed, set_in s2 rest)
      | (None, s2) => (Panicked, set_in s2 rest)
      end.
Proof. exact reinterpreted. Qed.
Print Assumptions C40_not_reinterpreted_refuted.
(** What holds: a Setup rejected for its key's contents is consumed entirely.
    Missing: announced sizes above the limit. *)
Theorem C40_bad_key_consumed_partial : forall C E s id key rest, length id = 16%nat -> lenN key <= 2 ^ 16 ->
  (forall k, pkix_parse C key <> Some (PkX25519 k)) ->
  e_quit E (s_step s) = false -> s_in s = [x12] ++ id ++ be_enc 4 (lenN key) ++ key ++ rest ->
  let '(res, s') := srun C E (conn_body C) s in
  s_in s' = rest /\ no_calls s s' /\ s_map s' = s_map s /\ s_heap s' = s_heap s /\
  (exists t, responded s s' (RsError 1 t)) /\ (writes_all E -> res = Some true).
Proof. exact bad_key_setup. Qed.
Print Assumptions C40_bad_key_consumed_partial.
Example C40_example : forall k, pkix_parse toy [x05; x06] <> Some (PkX25519 k).
Proof. intros k H. vm_compute in H. discriminate H. Qed.

(** C33 gives the response to a handler error and the effect of a panic. Here:
    what the handler does has no influence on the sessions. *)
Theorem C41_handler_contained : forall C E1 E2 s host id ctr msg reply rest ses hist key pt,
  let rq := RqProcess id ctr msg reply in
  request_ok rq -> s_in s = enc_request rq ++ rest ->
  e_quit E1 (s_step s) = false -> e_quit E2 (s_step s) = false ->
  e_host E1 = Some host -> e_host E2 = Some host ->
  known C s host id = Some ses -> Forall (fun c => c < 2 ^ 64) hist ->
  snd (checks new_window hist) = ses_win ses -> wf s -> ~ refused_after hist ctr ->
  new_gcm C (ses_secret ses) = Some key ->
  gcm_open C key (x00 :: repeat x00 3 ++ be_enc 8 ctr) msg = Some pt ->
  let s1 := snd (srun C E1 (conn_body C) s) in
  let s2 := snd (srun C E2 (conn_body C) s) in
  same_sessions C s1 s2 /\ s_in s1 = s_in s2.
Proof. exact handler_independent. Qed.
Print Assumptions C41_handler_contained.
Theorem C41_error_and_panic : forall C E s host id msg rest ctr reply,
  request_ok (RqProcess id ctr msg reply) ->
  s_in s = enc_request (RqProcess id ctr msg reply) ++ rest ->
  e_quit E (s_step s) = false -> e_host E = Some host ->
  forall ses hist, known C s host id = Some ses ->
  Forall (fun c => c < 2 ^ 64) hist -> snd (checks new_window hist) = ses_win ses ->
  wf s -> ~ refused_after hist ctr ->
  forall key, new_gcm C (ses_secret ses) = Some key ->
  forall pt, gcm_open C key (x00 :: repeat x00 3 ++ be_enc 8 ctr) msg = Some pt ->
  let '(res, s') := srun C E (conn_body C) s in
  ((forall i, e_handler E i reply pt = HErr) -> exists t, responded s s' (RsError 2 t)) /\
  ((forall i, e_handler E i reply pt = HPanic) -> silent s s' /\ res = None).
Proof. exact handler_error_panic. Qed.
Print Assumptions C41_error_and_panic.
Example C41_example :
  let s := ex_s (enc_request (ex_process 5 [x41] true)) in
  let run_ h := srun toy (ex_env h (KOk [])) (conn_body toy) s in
  fst (run_ HErr) = Some true /\ fst (run_ HPanic) = None /\
  known toy (snd (run_ HErr)) ex_host ex_id = known toy (snd (run_ (HOk []))) ex_host ex_id /\
  known toy (snd (run_ HPanic)) ex_host ex_id = known toy (snd (run_ (HOk []))) ex_host ex_id.
Proof. vm_compute. auto. Qed.
