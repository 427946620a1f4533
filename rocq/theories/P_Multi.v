(** Properties C131-C134, C150: connections do not disturb one another. *)
From Verif Require Import Bytes Crypto Toy Server ServerSeq Keys SpecServer ServerExamples MultiConn SpecMulti MultiProofs MultiSeq ServerPanic MultiExamples.

(** C131: whatever the order of their effects, connections that use some sessions
    do what they would do if the connections that use other sessions were not
    there; and the sessions are the same. *)
Theorem C131_sessions_apart : forall C E tcp G K inputs m sched, sane m ->
  within C E tcp G K sched (starting C tcp inputs m) ->
  let all := mrun C E tcp sched (starting C tcp inputs m) in
  let few := mrun C E tcp (part G K sched) (starting C tcp inputs m) in
  (forall i, G i = true -> same_conduct (tcp i) (t_conn all i) (t_conn few i)) /\
  (forall hst id, K (session_key C hst id) = true ->
     session_of C (t_mem all) hst id = session_of C (t_mem few) hst id).
Proof. exact undisturbed. Qed.
Print Assumptions C131_sessions_apart.
Example C131_example :
  let t := starting toy (fun _ => true) ex_input ex_mem in
  within toy (fun _ => ex_E) (fun _ => true) (fun j => Nat.eqb j 0) ex_K (ex_turns 40) t /\
  length (c_sent (t_conn (mrun toy (fun _ => ex_E) (fun _ => true) (ex_turns 40) t) 0)) = 2%nat /\
  seen (c_calls (t_conn (mrun toy (fun _ => ex_E) (fun _ => true) (ex_turns 40) t) 0)) = [(1, true, [x41])] /\
  seen (c_calls (t_conn (mrun toy (fun _ => ex_E) (fun _ => true) (ex_turns 40) t) 1)) = [(1, true, [x42])].
Proof. exact two_ids. Qed.

(** C132: clients of other hosts never disturb those of a host, whatever they
    send, unless session keys of the two collide. *)
Theorem C132_hosts_apart : forall C E tcp G K,
  (forall i hst id, e_host (E i) = Some hst -> lenN id = 16 -> K (session_key C hst id) = G i) ->
  forall inputs m sched, sane m ->
  let all := mrun C E tcp sched (starting C tcp inputs m) in
  let few := mrun C E tcp (part G K sched) (starting C tcp inputs m) in
  (forall i, G i = true -> same_conduct (tcp i) (t_conn all i) (t_conn few i)) /\
  (forall hst id, K (session_key C hst id) = true ->
     session_of C (t_mem all) hst id = session_of C (t_mem few) hst id).
Proof. exact hosts_apart. Qed.
Print Assumptions C132_hosts_apart.
Example C132_example :
  (forall j hst id, e_host (ex_E2 j) = Some hst -> lenN id = 16 -> ex_K2 (session_key toy hst id) = Nat.eqb j 0) /\
  let t := mrun toy ex_E2 (fun _ => true) (ex_turns 40) (starting toy (fun _ => true) (fun _ => ex_input 0) ex_mem) in
  status_of true (t_conn t 0) = Ended /\ status_of true (t_conn t 1) = Ended /\
  seen (c_calls (t_conn t 0)) = [(1, true, [x41])] /\ seen (c_calls (t_conn t 1)) = [(1, true, [x41])].
Proof. exact (conj two_hosts two_hosts_run). Qed.

(** C133: a TCP connection that is the only one to use its sessions, and whose
    sessions are not collected, does exactly what it does when it is the only
    connection of the server: so what is proved of sequential runs holds for it. *)
Theorem C133_as_if_alone : forall C E tcp i inputs m sched K,
  sane m -> tcp i = true ->
  within C E tcp (fun j => Nat.eqb j i) K sched (starting C tcp inputs m) ->
  (forall k, In (ACollect k) sched -> K k = false) ->
  let all := mrun C E tcp sched (starting C tcp inputs m) in
  let '(ft, s) := serve_conn C (E i) (join m (fresh_conn C true (inputs i))) in
  match status_of true (t_conn all i) with
  | Ended => ft = Closed /\ agrees C K (t_mem all) (t_conn all i) s
  | Crashed => ft = Panicked /\ agrees C K (t_mem all) (t_conn all i) s
  | Running => exists x y, s_sent s = c_sent (t_conn all i) ++ x /\
                 seen (s_calls s) = seen (c_calls (t_conn all i)) ++ y
  end.
Proof. exact as_if_alone. Qed.
Print Assumptions C133_as_if_alone.
(** The same for the only connection of a host. *)
Theorem C133_only_of_its_host : forall C E tcp i inputs m sched K,
  sane m -> tcp i = true ->
  (forall j hst id, e_host (E j) = Some hst -> lenN id = 16 -> K (session_key C hst id) = Nat.eqb j i) ->
  (forall k, In (ACollect k) sched -> K k = false) ->
  let all := mrun C E tcp sched (starting C tcp inputs m) in
  let '(ft, s) := serve_conn C (E i) (join m (fresh_conn C true (inputs i))) in
  match status_of true (t_conn all i) with
  | Ended => ft = Closed /\ agrees C K (t_mem all) (t_conn all i) s
  | Crashed => ft = Panicked /\ agrees C K (t_mem all) (t_conn all i) s
  | Running => exists x y, s_sent s = c_sent (t_conn all i) ++ x /\
                 seen (s_calls s) = seen (c_calls (t_conn all i)) ++ y
  end.
Proof. exact alone_host. Qed.
Print Assumptions C133_only_of_its_host.
Example C133_example : sane ex_mem /\
  (forall j hst id, e_host (ex_E2 j) = Some hst -> lenN id = 16 -> ex_K2 (session_key toy hst id) = Nat.eqb j 0) /\
  (forall k, In (ACollect k) (ex_turns 40) -> ex_K2 k = false).
Proof. exact alone_example. Qed.

(** C134: such a connection comes to an end after a number of its own effects
    that does not depend on the other connections. *)
Theorem C134_others_cannot_delay : forall C E tcp i inputs m, sane m -> tcp i = true ->
  exists n, forall sched K,
  within C E tcp (fun j => Nat.eqb j i) K sched (starting C tcp inputs m) ->
  (forall k, In (ACollect k) sched -> K k = false) ->
  (n <= turns i sched)%nat ->
  status_of true (t_conn (mrun C E tcp sched (starting C tcp inputs m)) i) <> Running.
Proof. exact alone_ends. Qed.
Print Assumptions C134_others_cannot_delay.
Example C134_example : turns 0 (ex_turns 40) = 40%nat /\
  within toy (fun _ => ex_E) (fun _ => true) (fun j => Nat.eqb j 0) ex_K (ex_turns 40)
    (starting toy (fun _ => true) ex_input ex_mem).
Proof. exact (conj eq_refl (proj1 two_ids)). Qed.

(** C150: whatever the peers send and however the connections interleave, the
    goroutine of a connection panics only if the handler or the key manager did;
    if it was the handler, on the message it was called with last. *)
Theorem C150_panics_are_theirs : forall C E tcp inputs m sched i,
  let c := t_conn (mrun C E tcp sched (starting C tcp inputs m)) i in
  status_of (tcp i) c = Crashed ->
  (exists l p n reply msg k, c_calls c = l ++ [(p, n, reply, msg)] /\ e_handler (E i) k reply msg = HPanic) \/
  (exists k h x, e_sign (E i) k h x = KPanic) \/ (exists k, e_fetch (E i) k = KPanic).
Proof. exact crash_blame. Qed.
Print Assumptions C150_panics_are_theirs.
(** The key manager in memory never does, so then it was the handler. *)
Theorem C150_handler : forall C E tcp inputs m sched i sk rnd,
  (forall k h x, e_sign (E i) k h x = sign C sk (rnd k) h x) -> (forall k, e_fetch (E i) k = fetch_key C sk) ->
  let c := t_conn (mrun C E tcp sched (starting C tcp inputs m)) i in
  status_of (tcp i) c = Crashed ->
  exists l p n reply msg k, c_calls c = l ++ [(p, n, reply, msg)] /\ e_handler (E i) k reply msg = HPanic.
Proof. exact crash_handler. Qed.
Print Assumptions C150_handler.
Example C150_example :
  let t := mrun toy (fun _ => ex_E3) (fun _ => true) (ex_turns 40) (starting toy (fun _ => true) ex_input ex_mem) in
  status_of true (t_conn t 0) = Ended /\ status_of true (t_conn t 1) = Crashed /\
  seen (c_calls (t_conn t 0)) = [(1, true, [x41])] /\ seen (c_calls (t_conn t 1)) = [(1, true, [x42])].
Proof. exact ex_crash. Qed.
