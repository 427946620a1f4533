(** What client and server together give their users (C111, C112), under any
    interleaving of any number of clients and requests and any network, as long as
    nobody forges a ciphertext. *)
From Verif Require Import Bytes Parser Crypto Wire WireSeq Toy Server Keys Client Conc SpecConc ClientConc SpecClientConc
  SpecChannel ChannelProofs ConcExamples ClientConcExamples ChannelExamples.

(** C111. Every call of the handler under a key that clients use passes a message
    that one of those clients wrote, with the counter this Write got. *)
Theorem C111_calls_are_writes : forall C W k g, CryptoLaws C -> reachable C g -> kreachable C W k ->
  forall n i p c reply m r key s, requests_unforged C W k g -> distinct_keys C W k ->
  nth_error (g_trace g) n = Some (i, EvHandler p c reply m r) ->
  server_key C g p key -> used W k s -> client_key C W s key ->
  exists j cl, w_session W cl = s /\ wrote_by k j cl c m /\ serves C W k g n j.
Proof. exact calls_are_writes. Qed.
Print Assumptions C111_calls_are_writes.
(** No Write is served by two calls, and no call serves two Writes. *)
Theorem C111_each_write_once : forall C W k g, reachable C g -> kreachable C W k ->
  forall n1 n2 j, distinct_server_keys C g -> serves C W k g n1 j -> serves C W k g n2 j -> n1 = n2.
Proof. exact serves_once. Qed.
Print Assumptions C111_each_write_once.
Theorem C111_each_call_one_write : forall C W k g, reachable C g -> kreachable C W k ->
  forall n j1 j2, distinct_keys C W k -> (forall s, adds s (k_trace k) <= 2 ^ 64) ->
  serves C W k g n j1 -> serves C W k g n j2 -> j1 = j2.
Proof. exact serves_one_write. Qed.
Print Assumptions C111_each_call_one_write.

Example C111_example : reachable toy ex_cg /\ kreachable toy ex_W ex_k2 /\ requests_unforged toy ex_W ex_k2 ex_cg /\
  distinct_keys toy ex_W ex_k2 /\ distinct_server_keys toy ex_cg /\ (forall s, adds s (k_trace ex_k2) <= 2 ^ 64) /\
  map (fun x => (fst x, snd (snd x))) (handler_calls (g_trace ex_cg)) = [(2%nat, [x42]); (17%nat, [x41])] /\
  serves toy ex_W ex_k2 ex_cg 17 0 /\ serves toy ex_W ex_k2 ex_cg 2 1.
Proof.
  split; [exact ex_cg_reach|]. split; [exact ex_k2_reach|]. split; [exact ex_requests_unforged|].
  split; [apply ex_k2_facts|]. split; [exact ex_distinct_server|]. split; [exact ex_adds|].
  split; [vm_compute; reflexivity|exact ex_serves].
Qed.

(** C112. A reply accepted by a Read on a client is what the handler returned from
    a call that serves a Write on this very client, the one whose counter the
    client recorded last. *)
Theorem C112_replies_answer_writes : forall C W k g, CryptoLaws C -> reachable C g -> kreachable C W k ->
  forall cl c ct m, requests_unforged C W k g -> replies_unforged C W k g ->
  distinct_keys C W k -> adds (w_session W cl) (k_trace k) <= 2 ^ 64 -> accepted C W k cl c ct m ->
  exists n j i p req, nth_error (g_trace g) n = Some (i, EvHandler p c true req (HOk m)) /\
    serves C W k g n j /\ wrote_by k j cl c req.
Proof. exact reply_serves. Qed.
Print Assumptions C112_replies_answer_writes.
Example C112_example : replies_unforged toy ex_W ex_k2 ex_cg /\
  (exists ct, accepted toy ex_W ex_k2 0 2 ct [x41; x21]) /\
  exists p, nth_error (g_trace ex_cg) 17 = Some (1%nat, EvHandler p 2 true [x41] (HOk [x41; x21])).
Proof.
  split; [exact ex_replies_unforged|]. split; [eexists; apply ex_k2_facts|].
  exists 0%nat. vm_compute. reflexivity.
Qed.
