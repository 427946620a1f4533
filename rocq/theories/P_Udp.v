(** UDP. A [unet] is a socket: the datagrams that arrived and those that left;
    [send i b] says whether the [i]-th datagram sent can be sent; how the loops
    over Read cut their reads ([chunk]) is arbitrary. *)
From Verif Require Import Bytes BytesProofs Parser Crypto Kdf Wire WireSeq WireExtra Toy Replay SpecReplay ReplayProofs
  Server ServerSeq SpecServer ServerProofs ServerProps ServerProps2 ServerExamples ServerForge
  Keys Client ClientSeq SpecClient ClientProofs SpecE2E ClientExamples Udp SpecUdp UdpProofs UdpThms.

(** C64. Whatever is waiting in the socket: a request is served as on a stream
    that consists of its datagram alone, one datagram is consumed, and what the
    server wrote leaves, in order, as at most one datagram, to the source of the
    request. *)
Theorem C64_one_datagram_each_way : forall C E hostof chunk send n s a d q,
  n_closed n = false -> n_in n = (a, d) :: q ->
  exists r s1 l ok n' s',
    udp_exchange C E hostof chunk send n s = (Some (r, ok), (n', s')) /\
    srun C (dgram_env E (hostof a)) (one_request C) (set_in s d) = (r, s1) /\
    set_in s' (s_in s1) = s1 /\ s_sent s1 = s_sent s ++ l /\ Forall (fun x => snd x = lenN (fst x)) l /\
    n_in n' = q /\ n_closed n' = false /\
    ((wire l = [] /\ n_out n' = n_out n /\ ok = true) \/
     (wire l <> [] /\ ok = send (n_step n) (wire l) /\ n_out n' = n_out n ++ (if ok then [(Some a, wire l)] else []))).
Proof. exact exchange_flat. Qed.
Print Assumptions C64_one_datagram_each_way.
(** A Process request that wants a reply: one datagram with one response, unless
    the handler panics or the datagram cannot be sent. *)
Theorem C64_one_response : forall C, CryptoLaws C -> forall E hostof chunk send n s a id ctr msg rest q,
  let rq := RqProcess id ctr msg true in
  request_ok rq -> n_closed n = false -> n_in n = (a, enc_request rq ++ rest) :: q ->
  exists r ok n' s', udp_exchange C E hostof chunk send n s = (Some (r, ok), (n', s')) /\ n_in n' = q /\
  ((exists rs, r = Some true /\ ((exists c t, rs = RsError c t) \/ exists m, rs = RsProcess ctr m) /\
     ok = send (n_step n) (enc_response rs) /\
     n_out n' = n_out n ++ (if ok then [(Some a, enc_response rs)] else [])) \/
   (r = None /\ n_out n' = n_out n /\ exists i m, e_handler E i true m = HPanic)).
Proof. exact udp_one_response. Qed.
Print Assumptions C64_one_response.
Example C64_example :
  let n := ex_net [([x01], enc_request (ex_process 5 [x41] true)); ([x02], enc_request RqHello); ([x03], [x00; x01])] in
  let ex := udp_exchange toy ex_E ex_hostof (fun _ => 3) (fun _ _ => true) in
  request_ok (ex_process 5 [x41] true) /\
  let '(r1, (n1, s1)) := ex n (ex_s []) in
  let '(r2, (n2, s2)) := ex n1 s1 in
  let '(r3, (n3, s3)) := ex n2 s2 in
  r1 = Some (Some true, true) /\ r2 = Some (Some true, true) /\ r3 = Some (Some false, true) /\ n_in n3 = [] /\
  n_out n3 = [(Some [x01], enc_response (RsProcess 5 (gcm_seal toy ex_key (gcm_nonce dir_s2c 5) [x41; x21])));
              (Some [x02], enc_response RsHello)].
Proof. split; [split; [reflexivity|split; [reflexivity|vm_compute; discriminate]]|]. vm_compute. repeat split. Qed.

(** C65 is refuted: whatever a client did with its UDP connection, Close does
    nothing. The socket stays open and takes further writes. *)
Theorem C65_close_releases_refuted : forall C E chunk send A (prog : cprog A) s0 net, n_closed net = false ->
  let '(_, ((u, n), s)) := ucrun C E chunk send prog (new_udp false, net) s0 in
  udp_close send (u, n) = (true, (u, n)) /\ n_closed n = false /\
  forall b, send (n_step n) b = true ->
    fst (udp_write send b (snd (udp_close send (u, n)))) = (lenN b, true) /\
    n_out (snd (snd (udp_write send b (snd (udp_close send (u, n)))))) = n_out n ++ [(None, b)].
Proof. exact udp_close_nothing. Qed.
Print Assumptions C65_close_releases_refuted.
Example C65_example :
  let '(r, ((u, n), _)) := ucrun toy ex_CE (fun _ => 3) (fun _ _ => true) (client_write toy ex_opts ex_ses [x41]) (new_udp false, ex_net []) (cst0 []) in
  r = Some (WrConn 51 false) /\ length (n_out n) = 1%nat /\
  n_out (snd (snd (udp_write (fun _ _ => true) [x42] (snd (udp_close (fun _ _ => true) (u, n)))))) = n_out n ++ [(None, [x42])].
Proof. vm_compute. repeat split. Qed.

(** C84 is refuted: the handler's output is too long for a datagram. The handler
    was called and the request counts as answered, but no datagram is sent, not
    even one with an error. 65507 is the largest UDP payload over IPv4. *)
Theorem C84_oversize_reported_refuted : forall C, CryptoLaws C ->
  forall E hostof chunk send n s a host id ctr msg q ses hist key pt,
  let rq := RqProcess id ctr msg true in
  request_ok rq -> n_closed n = false -> n_in n = (a, enc_request rq) :: q -> hostof a = Some host ->
  known C s host id = Some ses -> Forall (fun c => c < 2 ^ 64) hist ->
  snd (checks new_window hist) = ses_win ses -> wf s -> ~ refused_after hist ctr ->
  new_gcm C (ses_secret ses) = Some key ->
  gcm_open C key (gcm_nonce dir_c2s ctr) msg = Some pt ->
  (forall i, exists out, e_handler E i true pt = HOk out /\ 65507 < lenN out) ->
  (forall i b, 65507 < lenN b -> send i b = false) ->
  let '(r, (n', s')) := udp_exchange C E hostof chunk send n s in
  r = Some (Some true, false) /\ n_out n' = n_out n /\ exists p, s_calls s' = s_calls s ++ [(p, ctr, true, pt)].
Proof. exact udp_oversize. Qed.
Print Assumptions C84_oversize_reported_refuted.
Example C84_example :
  let E := ex_env (HOk (repeat x41 (N.to_nat 65536))) (KOk [x99]) in
  let s := ex_s [] in
  (exists ses, known toy s ex_host ex_id = Some ses /\ snd (checks new_window []) = ses_win ses /\
               new_gcm toy (ses_secret ses) = Some ex_key) /\
  ~ refused_after [] 5 /\ wf s /\
  (exists msg, ex_process 5 [x41] true = RqProcess ex_id 5 msg true /\ request_ok (ex_process 5 [x41] true) /\
               gcm_open toy ex_key (gcm_nonce dir_c2s 5) msg = Some [x41]) /\
  (forall i, exists out, e_handler E i true [x41] = HOk out /\ 65507 < lenN out) /\
  (forall (i : nat) (b : bytes), 65507 < lenN b -> (lenN b <=? 65507) = false).
Proof.
  split; [eexists; split; [vm_compute; reflexivity|split; vm_compute; reflexivity]|].
  split; [intros [H|[[]|H]]; [discriminate H|vm_compute in H; apply H; reflexivity]|].
  split; [apply ex_s_wf|]. split; [eexists; split; [reflexivity|split; [split; [reflexivity|split; [reflexivity|vm_compute; discriminate]]|vm_compute; reflexivity]]|]. split.
  - intros i. eexists. split; [reflexivity|]. unfold lenN. rewrite app_length, repeat_length. lia.
  - intros i b H. apply N.leb_gt. exact H.
Qed.

(** C85. Whatever earlier datagrams left in the connection, the Read after the
    next Write looks at the datagram that arrives then. *)
Theorem C85_garbage_is_dropped : forall C, CryptoLaws C -> forall E chunk send o ses p u net s a oc key m n,
  (forall i, ce_deadline E i = true) -> (forall i b, send i b = true) -> udp_client u -> n_closed net = false ->
  n_in net = [] -> c_buf s = [] -> c_ctr s + 1 < 2 ^ 64 -> client_gcm C (cs_secret ses) = Some key -> m <> [] ->
  let c := c_ctr s + 1 in
  process_response_octets oc c (gcm_seal C key (gcm_nonce dir_s2c c) m) ->
  let '(w, ((u1, n1), s1)) := ucrun C E chunk send (client_write C o ses p) (u, net) s in
  let '(r, _) := ucrun C E chunk send (client_read C o ses n) (u1, arrive a oc n1) s1 in
  r = Some (RdOk (takeN n m) (lenN m <=? n)).
Proof. exact udp_garbage. Qed.
Print Assumptions C85_garbage_is_dropped.
Example C85_example :
  let u := {| u_read := true; u_addr := [x01]; u_rbuf := repeat x55 30; u_wbuf := []; u_buffered := false |} in
  let '(w, ((u1, n1), s1)) := ucrun toy ex_CE (fun _ => 3) (fun _ _ => true) (client_write toy ex_opts ex_ses [x01]) (u, ex_net []) (cst0 []) in
  let '(r, _) := ucrun toy ex_CE (fun _ => 3) (fun _ _ => true) (client_read toy ex_opts ex_ses 9) (u1, arrive [x01] (ex_reply [x42; x43]) n1) s1 in
  udp_client u /\ client_gcm toy (cs_secret ex_ses) = Some ex_ckey /\ r = Some (RdOk [x42; x43] true).
Proof. vm_compute. repeat split. Qed.

(** C86 is refuted: once one reply too many is waiting in the socket, because it
    came late or twice, no later exchange of one Write and one Read succeeds. *)
Theorem C86_late_datagram_refuted : forall C, CryptoLaws C -> forall E chunk send o ses n a f ct,
  (forall i, ce_deadline E i = true) -> (forall i b, send i b = true) ->
  (forall c, c < 2 ^ 64 -> process_response_octets (f c) c (ct c)) ->
  forall ps u net s, udp_client u -> n_closed net = false -> c_buf s = [] -> n_in net = [(a, f (c_last s))] -> c_ctr s = c_last s ->
  c_last s + lenN ps < 2 ^ 64 ->
  udp_exchanges C E chunk send o ses n a f ps (u, net) s = map (fun _ => Some (RdErr RdCounter)) ps.
Proof. exact udp_late. Qed.
Print Assumptions C86_late_datagram_refuted.
Example C86_example :
  let f c := enc_response (RsProcess c (gcm_seal toy ex_ckey (gcm_nonce dir_s2c c) [x42; x43])) in
  let go := udp_exchanges toy ex_CE (fun _ => 3) (fun _ _ => true) ex_opts ex_ses 9 [x01] f [[x01]; [x02]; [x03]] in
  go (new_udp false, ex_net []) (ex_cs []) = repeat (Some (RdOk [x42; x43] true)) 3 /\
  go (new_udp false, ex_net [([x01], f 1)]) (ex_cs []) = repeat (Some (RdErr RdCounter)) 3.
Proof. vm_compute. split; reflexivity. Qed.
