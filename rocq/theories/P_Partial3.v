(** What remains of C21, C50, C61, C67, C74, C75 and C90, and more about C86. *)
From Verif Require Import Bytes BytesProofs Parser Crypto Kdf Wire WireSeq Toy Replay SpecReplay Server ServerSeq SpecServer ServerProps ServerExamples
  Keys Client ClientSeq SpecClient ClientExamples ClientConc Pool SpecPool PoolExec PoolThms Life SpecLife LifeThms SpecPartial
  Timed SpecTimed P_Timed Udp SpecUdp UdpThms PartialProofs3 PartialLife UdpMore.

(** C21. A counter is accepted if it is not zero, was not accepted before, and lags
    at most 63 behind every accepted one. Missing: lagging by exactly 64. *)
Theorem C21_window_64_behind_partial : forall hist c, Forall (fun x => x < 2 ^ 64) hist -> c < 2 ^ 64 ->
  let '(rs, w) := checks new_window hist in
  let seen := accepted hist rs in
  c <> 0 -> ~ In c seen -> (forall x, In x seen -> x <= c + 63) -> fst (check_and_update w c) = true.
Proof. exact window_63. Qed.
Print Assumptions C21_window_64_behind_partial.
Example C21_partial_example : fst (checks new_window [64; 1; 70; 7]) = [true; true; true; true].
Proof. vm_compute. reflexivity. Qed.

(** C50. If the transport reports short writes, a Write that reports no error has
    sent one whole request that carries [p]. Missing: the number reported, which
    counts octets of the request, not of [p]. *)
Theorem C50_write_reports_len_partial : forall C E o ses p s n s',
  (forall i b, snd (ce_write E i b) = false -> lenN b <= fst (ce_write E i b)) ->
  crun C E (client_write C o ses p) s = (Some (WrConn n false), s') ->
  exists key c ct, client_gcm C (cs_secret ses) = Some key /\ c = (c_ctr s + 1) mod 2 ^ 64 /\ c <> 0 /\
    ct = gcm_seal C key (x00 :: repeat x00 3 ++ be_enc 8 c) p /\
    c_sent s' = c_sent s ++ [(enc_request (RqProcess (cs_id ses) c ct (co_reply o)), lenN (enc_request (RqProcess (cs_id ses) c ct (co_reply o))))].
Proof. exact write_whole. Qed.
Print Assumptions C50_write_reports_len_partial.
(** A transport that fails every second time, after two octets. *)
Definition ex_flaky : cenv := {|
  ce_end := EndEOF; ce_write := fun i b => if Nat.even i then (2, true) else (lenN b, false); ce_deadline := fun _ => true;
  ce_fetch := fun _ => None; ce_rand := None; ce_gen := None |}.
Example C50_partial_example : (forall i b, snd (ce_write ex_flaky i b) = false -> lenN b <= fst (ce_write ex_flaky i b)) /\
  fst (crun toy ex_flaky (client_write toy ex_opts ex_ses [x41]) (cst0 [])) = Some (WrConn 51 false) /\
  fst (crun toy ex_flaky (client_write toy ex_opts ex_ses [x41]) (c_tick (cst0 []))) = Some (WrConn 2 true).
Proof. split; [intros i b; cbn; destruct (Nat.even i); [discriminate|intros _; apply N.le_refl]|]. split; vm_compute; reflexivity. Qed.

(** C61. What Get returns was just tested successfully or just dialled. Missing:
    that Get gets rid of dead connections. *)
Theorem C61_partial : forall mi mo s, preachable mi mo s -> forall post i c pre, p_trace s = post ++ (i, EGot c) :: pre ->
  exists pre', pre = (i, ETest c true) :: pre' \/ pre = (i, EDial c) :: pre'.
Proof. exact got_alive. Qed.
Print Assumptions C61_partial.
Example C61_partial_example : preachable 1 2 ex_two /\ In (0%nat, EGot 0) (p_trace ex_two) /\ In (1%nat, EGot 1) (p_trace ex_two).
Proof. destruct ex_two_facts as (A & _ & _ & _ & _ & _ & _ & _ & B & D). auto. Qed.

(** C67. Once Close has closed the channel every UDP listener receives at most one
    more datagram. Missing: that Close waits for it. *)
Theorem C67_no_udp_after_close_partial : forall s, lreach s -> forall post k pre, l_trace s = post ++ (k, EQuit) :: pre ->
  forall a, (dgrams_of a post <= 1)%nat /\ (l_pc s a = PRecv -> dgrams_of a post = 0%nat).
Proof. exact late_dgrams_reach. Qed.
Print Assumptions C67_no_udp_after_close_partial.
Example C67_partial_example : lreach (lafter ex_udp) /\
  l_trace (lafter ex_udp) = [(2, EDHandle); (0, EDgram); (1, EReturned)]%nat ++ (1%nat, EQuit) :: [] /\
  dgrams_of 0 [(2, EDHandle); (0, EDgram); (1, EReturned)]%nat = 1%nat.
Proof. split; [apply lafter_reach|]. split; vm_compute; reflexivity. Qed.

(** C74. Somebody who flips the flag of a request changes neither the message
    delivered nor any session nor what is read next. Missing: the flag itself. *)
Theorem C74_reply_flag_authenticated_partial : forall C E s i1 host id msg rest ctr f s2,
  request_ok (RqProcess id ctr msg f) ->
  s_in s = enc_request (RqProcess id ctr msg f) ++ rest ->
  s2 = set_in s i1 -> i1 = enc_request (RqProcess id ctr msg (negb f)) ++ rest ->
  e_quit E (s_step s) = false -> e_host E = Some host ->
  forall ses hist, known C s host id = Some ses ->
  Forall (fun c => c < 2 ^ 64) hist -> snd (checks new_window hist) = ses_win ses ->
  wf s -> ~ refused_after hist ctr ->
  forall key, new_gcm C (ses_secret ses) = Some key ->
  forall pt, gcm_open C key (x00 :: repeat x00 3 ++ be_enc 8 ctr) msg = Some pt ->
  let '(_, a) := srun C E (conn_body C) s in
  let '(_, b) := srun C E (conn_body C) s2 in
  (exists p, s_calls a = s_calls s ++ [(p, ctr, f, pt)]) /\ (exists p, s_calls b = s_calls s ++ [(p, ctr, negb f, pt)]) /\
  same_sessions C a b /\ s_in a = s_in b.
Proof. exact flag_harmless. Qed.
Print Assumptions C74_reply_flag_authenticated_partial.
Example C74_partial_example :
  let s f := ex_s (enc_request (ex_process 5 [x41] f) ++ [x11]) in
  let a := snd (srun toy ex_E (conn_body toy) (s true)) in
  let b := snd (srun toy ex_E (conn_body toy) (s false)) in
  s_calls a = [(0%nat, 5, true, [x41])] /\ s_calls b = [(0%nat, 5, false, [x41])] /\ s_in a = [x11] /\ s_in b = [x11].
Proof. vm_compute. auto. Qed.

(** C75. As many Reads as there were replies left unread fail; the next one returns
    the reply to the last Write. Missing: that these Reads are not needed. *)
Theorem C75_late_reply_harmless_partial : forall C, CryptoLaws C -> forall E o ses n p stale oc key m s,
  c_works E -> client_gcm C (cs_secret ses) = Some key -> m <> [] ->
  c_buf s = [] -> c_in s = concat stale -> c_ctr s + 1 < 2 ^ 64 ->
  Forall (fun x => exists c ct, process_response_octets x c ct /\ c <= c_ctr s) stale ->
  process_response_octets oc (c_ctr s + 1) (gcm_seal C key (x01 :: repeat x00 3 ++ be_enc 8 (c_ctr s + 1)) m) ->
  let '(_, s1) := crun C E (client_write C o ses p) s in
  fst (reads C E o ses (repeat n (length stale) ++ [n]) (c_set_in s1 (c_in s1 ++ oc))) =
    map (fun _ => Some (RdErr RdCounter)) stale ++ [Some (RdOk (takeN n m) (lenN m <=? n))].
Proof. exact resync. Qed.
Print Assumptions C75_late_reply_harmless_partial.
Example C75_partial_example :
  let f c := enc_response (RsProcess c (gcm_seal toy ex_ckey (gcm_nonce dir_s2c c) [x41])) in
  let '(_, s1) := crun toy ex_CE (client_write toy ex_opts ex_ses [x01]) (ex_cs (f 0 ++ f 1)) in
  client_gcm toy (cs_secret ex_ses) = Some ex_ckey /\
  fst (reads toy ex_CE ex_opts ex_ses [9; 9; 9] (c_set_in s1 (c_in s1 ++ f 2))) =
    [Some (RdErr RdCounter); Some (RdErr RdCounter); Some (RdOk [x41] true)].
Proof. vm_compute. auto. Qed.

(** C86 cannot be helped that way: over UDP, once one reply too many is waiting in
    the socket, every Read fails, however many Reads follow a Write. *)
Theorem C86_no_recovery_refuted : forall C, CryptoLaws C -> forall E chunk send o ses n a f ct,
  (forall i, ce_deadline E i = true) -> (forall i b, send i b = true) ->
  (forall c, c < 2 ^ 64 -> process_response_octets (f c) c (ct c)) ->
  forall ps u net s, udp_client u -> n_closed net = false -> c_buf s = [] -> n_in net = [(a, f (c_last s))] -> c_ctr s = c_last s ->
  c_last s + lenN ps < 2 ^ 64 ->
  Forall (Forall (fun r => exists e, r = Some (RdErr e))) (udp_rounds C E chunk send o ses n a f ps (u, net) s).
Proof. exact udp_late_forever. Qed.
Print Assumptions C86_no_recovery_refuted.
Example C86_no_recovery_example :
  let f c := enc_response (RsProcess c (gcm_seal toy ex_ckey (gcm_nonce dir_s2c c) [x42; x43])) in
  let go := udp_rounds toy ex_CE (fun _ => 3) (fun _ _ => true) ex_opts ex_ses 9 [x01] f [([x01], 2%nat); ([x02], 0%nat)] in
  map (map (fun r => match r with Some (RdOk _ _) => true | _ => false end)) (go (new_udp false, ex_net [([x01], f 1)]) (ex_cs [])) =
    [[false; false; false]; [false]] /\
  map (map (fun r => match r with Some (RdOk _ _) => true | _ => false end)) (go (new_udp false, ex_net []) (ex_cs [])) =
    [[true; false; false]; [true]].
Proof. vm_compute. auto. Qed.

(** C90. The handshake ends at the latest when all the server ever sends, and the
    end of its stream, have arrived (apart from the time its own steps take).
    Missing: a bound that does not depend on the server. *)
Theorem C90_dial_times_out_partial : forall C E delay rto wto host t s,
  let t' := fst (snd (timed_handshake C E delay rto wto host t s)) in
  exists k, t_n t' = (t_n t + k)%nat /\
  forall d, t_now t <= d -> t_eof t <= d -> Forall (fun a => a <= d) (t_arr t) -> t_now t' <= d + spent delay (t_n t) k.
Proof. exact handshake_ends. Qed.
Print Assumptions C90_dial_times_out_partial.
Example C90_partial_example :
  t_now (fst (snd (timed_handshake toy ex_CE (fun _ => 1) 5 5 (Some ex_name) (ex_t 0 0) (cst0 [])))) = 1001.
Proof. vm_compute. reflexivity. Qed.
