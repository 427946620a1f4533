(** Properties of the life of a server: any schedule of listeners, connections,
    datagrams and calls of Close. The trace of a state lists what happened, newest
    first. *)
From Verif Require Import Bytes ClientConc Life SpecLife LifeProofs LifeInv LifeWait LifeThms.

(** C66. After Close returned no request is read from a TCP connection, none is
    handled, and none is being handled. *)
Theorem C66_no_tcp_after_close : forall s post k pre, lreach s -> l_trace s = post ++ (k, EReturned) :: pre ->
  forall j, ~ In (j, ERead) post /\ ~ In (j, EHandle) post /\ l_pc s j <> HHandle.
Proof. exact nothing_after_close. Qed.
Print Assumptions C66_no_tcp_after_close.
Example C66_example :
  lreach (lafter ex_closed) /\
  l_trace (lafter ex_closed) = [(2, EReturned); (1, EConnClosed); (2, EQuit); (1, EHandle); (1, ERead); (0, ESpawn 1); (0, EAdd); (0, EAccept)]%nat.
Proof. split; [apply lafter_reach|vm_compute; reflexivity]. Qed.

(** C67 is refuted: a datagram that arrives at a UDP listener while it waits for
    one is received and handled, also if that is after Close returned. *)
Theorem C67_no_udp_after_close_refuted : forall s i j, l_crashed s = false -> l_pc s i = PRecv -> l_pc s j = TNone ->
  exists s', lrun s [(i, ChOk); (i, ChNew j); (j, ChOk)] = Some s' /\
    l_trace s' = (j, EDHandle) :: (i, EDgram) :: l_trace s.
Proof. exact udp_after_close. Qed.
Print Assumptions C67_no_udp_after_close_refuted.
Example C67_example : lreach (lafter (firstn 5 ex_udp)) /\ l_crashed (lafter (firstn 5 ex_udp)) = false /\
  l_pc (lafter (firstn 5 ex_udp)) 0%nat = PRecv /\ l_pc (lafter (firstn 5 ex_udp)) 2%nat = TNone /\
  In (1%nat, EReturned) (l_trace (lafter (firstn 5 ex_udp))).
Proof. exact ex_udp_before. Qed.

(** C87. Once the channel is closed every TCP listener accepts at most one more
    connection, and nothing is read from a connection whose goroutine starts then. *)
Theorem C87_late_connections : forall s post k pre, lreach s -> l_trace s = post ++ (k, EQuit) :: pre ->
  (forall a, (count_of a post <= 1)%nat) /\
  (forall a j, In (a, ESpawn j) post -> ~ In (j, ERead) (l_trace s)).
Proof. exact late_connections. Qed.
Print Assumptions C87_late_connections.
Example C87_example :
  let s := lafter (ex_closed ++ [(0, ChOk); (0, ChOk); (0, ChNew 7); (7, ChOk); (7, ChOk); (7, ChOk); (0, ChOk)])%nat in
  l_pc s 0%nat = AEnd /\ l_pc s 7%nat = HEnd /\
  exists post pre, l_trace s = post ++ (2%nat, EQuit) :: pre /\ count_of 0 post = 1%nat /\ In (0%nat, ESpawn 7) post.
Proof. vm_compute. split; [reflexivity|]. split; [reflexivity|]. eexists [_; _; _; _; _; _], _. split; [reflexivity|]. split; [reflexivity|]. auto 8. Qed.

(** C88 is refuted: if a connection is accepted while Close waits, either the
    process may crash (a goroutine of the server panics in WaitGroup.Add), or the
    one and only Close may panic. *)
Theorem C88_close_once_is_safe_refuted :
  (exists s, lreach s /\ l_crashed s = true /\ exists k, l_pc s k = KBlocked) /\
  (exists s k, lreach s /\ l_pc s k = KPanicked /\ forall k', In (k', EQuit) (l_trace s) -> k' = k).
Proof. exact close_may_crash. Qed.
Print Assumptions C88_close_once_is_safe_refuted.
(** What holds: if no connection is added to the WaitGroup after the channel was
    closed, nothing crashes and only a second Close panics. *)
Theorem C88_close_once_is_safe_partial : forall s, lreach s -> no_late_add (l_trace s) ->
  l_crashed s = false /\ forall k, l_pc s k = KPanicked -> exists k', k' <> k /\ In (k', EQuit) (l_trace s).
Proof. exact close_never_panics. Qed.
Print Assumptions C88_close_once_is_safe_partial.
Example C88_example : no_late_add (l_trace (lafter ex_closed)) /\ l_pc (lafter ex_closed) 2%nat = KReturned /\ ~ no_late_add (l_trace (lafter ex_crash)).
Proof.
  split; [exact ex_closed_ok|]. split; [vm_compute; reflexivity|].
  intros H. refine (H [(0%nat, EAdd); (1%nat, EConnClosed)] 2%nat _ 0%nat _ _); [vm_compute; reflexivity|left; reflexivity].
Qed.

(** C89 is refuted: a second Close always panics, in its first step, which it can take. *)
Theorem C89_close_twice_refuted : forall s k, lreach s -> l_crashed s = false -> l_pc s k = KClose -> l_quit s = true ->
  (exists c, ldo s k c <> None) /\ forall c s', ldo s k c = Some s' -> l_pc s' k = KPanicked.
Proof. exact close_twice. Qed.
Print Assumptions C89_close_twice_refuted.
Example C89_example :
  let s := lafter (ex_closed ++ [(3, ChClose)])%nat in
  l_crashed s = false /\ l_pc s 3%nat = KClose /\ l_quit s = true /\ l_pc s 2%nat = KReturned /\ ldo s 3 ChOk <> None.
Proof. vm_compute. repeat split. discriminate. Qed.

(** C92 is refuted: Close returned, and as long as no further client connects and
    Accept does not fail, whatever else happens, the listener stays in Accept; the
    port is not released. *)
Theorem C92_port_released_refuted : exists s k a, lreach s /\ l_pc s k = KReturned /\ l_pc s a = AAccept /\
  forall s', unserved a s s' -> l_pc s' a = AAccept.
Proof. exact port_kept. Qed.
Print Assumptions C92_port_released_refuted.

(** C93. Close does not miss its wake-up: at any time in Close, if no connection is
    added meanwhile, there is a way for the connections to end after which Close
    returns. *)
Theorem C93_close_can_return : forall s k, lreach s -> no_late_add (l_trace s) -> in_close (l_pc s k) = true ->
  exists s', closing s s' /\ l_pc s' k = KReturned.
Proof. exact close_can_return. Qed.
Print Assumptions C93_close_can_return.
Example C93_example : l_pc (lafter ex_closing) 2%nat = KBlocked /\ l_pc (lafter ex_closing) 1%nat = HRead.
Proof. vm_compute. split; reflexivity. Qed.

(** C94. Close waits for all client connections: when it returns every connection
    whose goroutine was started is closed. *)
Theorem C94_close_waits : forall s post k pre, lreach s -> l_trace s = post ++ (k, EReturned) :: pre ->
  forall a j, In (a, ESpawn j) pre -> In (j, EConnClosed) pre.
Proof. exact close_waits. Qed.
Print Assumptions C94_close_waits.
Example C94_example : l_trace (lafter ex_closed) = [] ++ (2, EReturned)%nat :: tl ex_closed_trace /\ In (0, ESpawn 1)%nat (tl ex_closed_trace).
Proof. split; [exact ex_closed_tr|cbn; auto 8]. Qed.

(** C95 is refuted: Close waits while a goroutine waits for a request, and for as
    long as the client is silent and reading does not fail (no read timeout),
    whatever else happens, the goroutine goes on waiting and no Close returns. *)
Theorem C95_silent_client_refuted : (exists s j k, lreach s /\ l_pc s j = HRead /\ l_pc s k = KBlocked) /\
  forall s j s', lreach s -> l_pc s j = HRead -> unserved j s s' ->
  l_pc s' j = HRead /\ forall k, ~ In (k, EReturned) (l_trace s').
Proof. exact silent_client. Qed.
Print Assumptions C95_silent_client_refuted.
Example C95_example : l_pc (lafter ex_closing) 1%nat = HRead /\ l_pc (lafter ex_closing) 2%nat = KBlocked.
Proof. vm_compute. split; reflexivity. Qed.
