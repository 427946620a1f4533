(** Property C178: using a client after a pause. *)
From Coq Require Import Strings.String.
From Verif Require Import Bytes Parser Crypto Kdf Wire WireSeq Toy Replay SpecReplay SecretMgr SecretMgrProofs Server ServerSeq SpecServer ServerExamples
  Keys Client ClientSeq SpecClient SpecE2E ClientExamples Aging SpecAging AgingProofs AgingExamples.

(** C178. Refuted: if a collection of the server's manager finds the session idle
    for longer than the TTL (15 minutes by default), the next message of the client,
    and every later one, is answered with error 3 (unknown client), however often it is repeated,
    and none reaches the handler; the client has no way back but to be dialled anew. *)
Theorem C178_pause_refuted : forall C CE SE o chost ttl, CryptoLaws C ->
  c_works CE -> writes_all SE -> (forall i, e_quit SE i = false) -> (forall i, e_store SE i = true) -> e_host SE = Some chost ->
  forall ses n u us cs a t h g h', length (cs_id ses) = 16%nat -> let k := session_key C chost (cs_id ses) in
  (0 < ttl)%Z -> used_at a k t -> tu_between u = h ++ MGc g :: h' -> (ttl < g - last_use k t h)%Z ->
  c_buf cs = [] -> no_stores (u :: us) -> c_ctr cs + lenN (u :: us) < 2 ^ 64 ->
  Forall (fun u => lenN (tu_msg u) + 16 <= 2 ^ 30) (u :: us) ->
  let '(rs, _, a') := aturns C CE SE o ses n ttl (u :: us) cs a in
  rs = map (fun _ => Some (RdErr (RdRemote 3 (str "could not find a shared secret matching the given ID")))) (u :: us) /\ s_calls (a_srv a') = s_calls (a_srv a).
Proof. exact turns_expired. Qed.
Print Assumptions C178_pause_refuted.
(** A session set up at minute 0, collections after 1, 2 and 16 minutes. *)
Example C178_refuted_example :
  paired toy ex_ses ex_host [] (cst0 []) (view ex_a) /\ used_at ex_a ex_akey 0 /\
  (minutes 15 < minutes 16 - last_use ex_akey 0 [MGc (minutes 1); MGc (minutes 2)])%Z /\
  fst (fst (aturns toy ex_CE ex_SE ex_opts ex_ses 100 (minutes 15) [at_min [1; 2; 16] 17 [x41]; at_min [18] 19 [x41]]%Z (cst0 []) ex_a)) =
  [Some (RdErr (RdRemote 3 (str "could not find a shared secret matching the given ID"))); Some (RdErr (RdRemote 3 (str "could not find a shared secret matching the given ID")))].
Proof. split; [apply ex_a_ok|]. split; [apply ex_a_ok|]. split; [reflexivity|exact ex_a_lost]. Qed.

(** If every collection finds the session used within the TTL, the client works for
    any number of messages, whatever the times: every message is handled, in order
    and once, and Read returns its reply. Missing: longer pauses. *)
Theorem C178_pause_partial : forall C CE SE o chost ttl, CryptoLaws C ->
  c_works CE -> writes_all SE -> (forall i, e_quit SE i = false) -> (forall i, e_store SE i = true) -> e_host SE = Some chost ->
  forall ses n (f : bytes -> bytes), co_reply o = true -> let k := session_key C chost (cs_id ses) in
  forall us t hist cs a,
  paired C ses chost hist cs (view a) -> Forall (fun c => c <= c_ctr cs) hist -> used_at a k t ->
  no_stores us -> in_time ttl k t us -> c_ctr cs + lenN us < 2 ^ 64 ->
  Forall (fun u => lenN (tu_msg u) + 16 <= 2 ^ 30) us ->
  (forall i u, In u us -> e_handler SE i true (tu_msg u) = HOk (f (tu_msg u)) /\ f (tu_msg u) <> [] /\ lenN (f (tu_msg u)) + 16 <= 2 ^ 30 /\ lenN (f (tu_msg u)) <= n) ->
  let '(rs, _, a') := aturns C CE SE o ses n ttl us cs a in
  rs = map (fun u => Some (RdOk (f (tu_msg u)) true)) us /\
  map snd (s_calls (a_srv a')) = map snd (s_calls (a_srv a)) ++ map tu_msg us.
Proof. exact turns_ok. Qed.
Print Assumptions C178_pause_partial.
Example C178_partial_example : let us := [at_min [1; 2; 15] 15 [x41]; at_min [16; 30] 30 [x42]]%Z in
  paired toy ex_ses ex_host [] (cst0 []) (view ex_a) /\ used_at ex_a ex_akey 0 /\ in_time (minutes 15) ex_akey 0 us /\
  fst (fst (aturns toy ex_CE ex_SE ex_opts ex_ses 100 (minutes 15) us (cst0 []) ex_a)) = [Some (RdOk [x41; x21] true); Some (RdOk [x42; x21] true)].
Proof. split; [apply ex_a_ok|]. split; [apply ex_a_ok|]. exact ex_a_talks. Qed.

(** The map that Server.v is written with is what the manager provides: every
    program run with the manager does the same, answers the same and leaves the
    same sessions. *)
Theorem C178_manager_is_the_map : forall C E A (p : sprog A) a, (forall i, e_store E i = true) ->
  let '(r, a') := arun C E p a in let '(r', s') := srun C E p (view a) in
  r = r' /\ s_in (a_srv a') = s_in s' /\ s_sent (a_srv a') = s_sent s' /\ s_calls (a_srv a') = s_calls s' /\
  s_heap (a_srv a') = s_heap s' /\ forall k, option_map it_session (a_mgr a' k) = s_map s' k.
Proof. exact manager_is_map. Qed.
Print Assumptions C178_manager_is_the_map.
Example C178_map_example :
  let a' := snd (arun toy ex_SE (conn_body toy) ex_a0) in let s' := snd (srun toy ex_SE (conn_body toy) (view ex_a0)) in
  length (s_sent (a_srv a')) = 1%nat /\ s_sent (a_srv a') = s_sent s' /\
  a_mgr a' ex_akey = Some {| it_session := 0; it_last := 0 |} /\ s_map s' ex_akey = Some 0%nat.
Proof. vm_compute. auto. Qed.
