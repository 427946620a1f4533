(** Requests in progress when the server is closed, and the UDP port. Any schedule of
    listeners, connections, datagrams and calls of Close; the trace of a state lists
    what happened, newest first. *)
From Verif Require Import Bytes BytesProofs Parser Crypto Wire WireSeq Toy Replay ClientConc Life SpecLife LifeProofs LifeInv LifePort LifeThms
  Server ServerSeq SpecServer ServerExamples Udp SpecUdp UdpProofs UdpThms LifeDrain LifeWind.

(** C163 is refuted: from any state with a UDP listener that waits, no TCP connection
    and a call of Close about to start: if a datagram arrives first, Close can
    return and the listener can end, which closes the socket, while the datagram is
    still being handled. *)
Theorem C163_requests_finish_refuted : forall s i j k, l_crashed s = false -> l_quit s = false -> l_v s = 0%Z ->
  l_pc s i = PRecv -> l_pc s j = TNone -> l_pc s k = KClose ->
  exists s', lrun s [(i, ChOk); (i, ChNew j); (k, ChOk); (k, ChOk); (i, ChOk)] = Some s' /\
    l_trace s' = (k, EReturned) :: (k, EQuit) :: (i, EDgram) :: l_trace s /\
    l_pc s' k = KReturned /\ l_pc s' i = PEnd /\ l_pc s' j = DHandle.
Proof. exact udp_not_drained. Qed.
Print Assumptions C163_requests_finish_refuted.
(** What becomes of that datagram: it is handled as ever, the handler runs, the
    counter is used up, and the answer is lost. *)
Theorem C163_answer_lost_refuted : forall C E hostof chunk send u net s,
  u_read u = true -> u_buffered u = true -> u_wbuf u = [] -> n_closed net = true ->
  exists r x s' l,
    urun C E hostof chunk send (one_request C) (u, net) s = (r, (x, s')) /\
    srun C (dgram_env E (hostof (u_addr u))) (one_request C) (set_in s (u_rbuf u)) = (r, set_in s' (u_rbuf (fst x))) /\
    s_sent s' = s_sent s ++ l /\
    n_out (snd (snd (udp_close send x))) = n_out net /\ (wire l <> [] -> fst (udp_close send x) = false).
Proof. exact closed_loses. Qed.
Print Assumptions C163_answer_lost_refuted.
(** What holds: when Close returns, every request read from a TCP connection was
    handled, and none is read or handled later. *)
Theorem C163_requests_finish_partial : forall s post k pre, lreach s -> l_trace s = post ++ (k, EReturned) :: pre ->
  forall a j, In (a, ESpawn j) pre ->
  reads_of j pre = handled_of j pre /\ reads_of j post = 0%nat /\ handled_of j post = 0%nat.
Proof. exact tcp_drained. Qed.
Print Assumptions C163_requests_finish_partial.
(** Whether or not the server is being closed, a connection is closed only when every
    request read from it was handled. *)
Theorem C163_connection_drained_partial : forall s post j pre, lreach s -> l_trace s = post ++ (j, EConnClosed) :: pre ->
  reads_of j pre = handled_of j pre /\ reads_of j post = 0%nat /\ handled_of j post = 0%nat.
Proof. exact conn_drained. Qed.
Print Assumptions C163_connection_drained_partial.
Example C163_example :
  let s := lafter [(0, ChUDP); (0, ChOk); (1, ChClose)]%nat in
  lreach s /\ l_crashed s = false /\ l_quit s = false /\ l_v s = 0%Z /\ l_pc s 0%nat = PRecv /\ l_pc s 2%nat = TNone /\ l_pc s 1%nat = KClose.
Proof. split; [apply lafter_reach|]. vm_compute. repeat split. Qed.
Example C163_lost_example :
  let u := {| u_read := true; u_addr := [x01]; u_rbuf := enc_request (ex_process 5 [x41] true); u_wbuf := []; u_buffered := true |} in
  let net := {| n_in := []; n_out := []; n_step := 0; n_closed := true |} in
  let '(r, (x, s')) := urun toy ex_E ex_hostof (fun _ => 3) (fun _ _ => true) (one_request toy) (u, net) (ex_s []) in
  r = Some true /\ length (s_calls s') = S (length (s_calls (ex_s []))) /\ length (s_sent s') = S (length (s_sent (ex_s []))) /\
  fst (udp_close (fun _ _ => true) x) = false /\ n_out (snd (snd (udp_close (fun _ _ => true) x))) = [].
Proof. vm_compute. repeat split. Qed.
Example C163_partial_example :
  lreach (lafter ex_closed) /\ exists pre, l_trace (lafter ex_closed) = [] ++ (2%nat, EReturned) :: pre /\
  In (0%nat, ESpawn 1%nat) pre /\ reads_of 1 pre = 1%nat /\ handled_of 1 pre = 1%nat.
Proof. split; [apply lafter_reach|]. vm_compute. eexists. split; [reflexivity|]. repeat split. auto 10. Qed.

(** C164. Once the server is told to quit, the goroutine that closes the UDP socket
    when it ends takes at most three more steps and does not come back to Receive;
    unless the process has crashed (C88) it can always take the next step, and the only
    step that needs something from outside is Receive, which an error, such as the
    read timeout, ends. *)
Theorem C164_udp_port_released : forall s a sched s', lreach s -> l_quit s = true -> packet_listener (l_pc s a) = true ->
  lrun s sched = Some s' ->
  (own_steps a sched <= 3)%nat /\ ((0 < own_steps a sched)%nat -> l_pc s' a <> PRecv) /\
  (l_crashed s' = false -> l_pc s' a = PEnd \/ exists c s2, ldo s' a c = Some s2 /\ (l_pc s' a = PRecv -> c = ChErr)).
Proof. exact udp_port_released. Qed.
Print Assumptions C164_udp_port_released.
Example C164_example : let s := lafter [(0, ChUDP); (0, ChOk); (1, ChClose); (1, ChOk); (1, ChOk)]%nat in
  lreach s /\ l_quit s = true /\ l_pc s 1%nat = KReturned /\ l_pc s 0%nat = PRecv /\ packet_listener (l_pc s 0%nat) = true /\
  exists s', lrun s [(0, ChErr); (0, ChOk)]%nat = Some s' /\ l_pc s' 0%nat = PEnd /\ own_steps 0 [(0, ChErr); (0, ChOk)]%nat = 2%nat.
Proof. split; [apply lafter_reach|]. vm_compute. repeat split. eexists. repeat split. Qed.

(** C166. Once the server is told to quit, a TCP connection handles at most one more
    request - the one it is reading or handling - and its goroutine ends after at
    most seven more steps; unless the process has crashed (C88) it can always take
    the next one, and the only step that needs something from outside is reading,
    which an error, such as the read timeout, ends. *)
Theorem C166_connections_wind_down : forall s j sched s', lreach s -> l_quit s = true -> connection (l_pc s j) = true ->
  lrun s sched = Some s' ->
  (own_steps j sched <= 7)%nat /\
  (exists post, l_trace s' = post ++ l_trace s /\ (handled_of j post <= 1)%nat /\
     (l_pc s j <> HRead -> reads_of j post = 0%nat /\ (l_pc s j <> HHandle -> handled_of j post = 0%nat))) /\
  (l_crashed s' = false -> l_pc s' j = HEnd \/ exists c s2, ldo s' j c = Some s2 /\ (l_pc s' j = HRead -> c = ChErr)).
Proof. exact winds_down. Qed.
Print Assumptions C166_connections_wind_down.
Example C166_example : let s := lafter [(0, ChTCP); (0, ChOk); (0, ChOk); (0, ChOk); (0, ChNew 1); (1, ChOk); (2, ChClose); (2, ChOk); (2, ChOk)]%nat in
  lreach s /\ l_quit s = true /\ l_pc s 1%nat = HRead /\ l_pc s 2%nat = KBlocked /\
  let sched := [(1, ChOk); (1, ChOk); (1, ChOk); (1, ChOk); (1, ChOk); (1, ChOk); (1, ChOk); (2, ChOk); (2, ChOk)]%nat in
  exists s', lrun s sched = Some s' /\ l_pc s' 1%nat = HEnd /\ l_pc s' 2%nat = KReturned /\ own_steps 1 sched = 7%nat /\
    l_trace s' = [(2, EReturned); (1, EConnClosed); (1, EHandle); (1, ERead)]%nat ++ l_trace s.
Proof. split; [apply lafter_reach|]. vm_compute. repeat split. eexists. repeat split. Qed.
