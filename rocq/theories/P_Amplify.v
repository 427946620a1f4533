(** Property C175: a server that listens on UDP as an amplifier. *)
From Verif Require Import Bytes Parser Crypto Wire WireSeq Toy Replay Server ServerSeq SpecServer ServerExamples Keys Client ClientSeq ClientExamples
  Udp SpecUdp UdpThms AmplifyProofs.

(** C175 is refuted: a datagram of one octet that asks for the public key is
    answered with the whole key, whatever source address the datagram bears. *)
Theorem C175_no_amplification_refuted : forall C E hostof chunk send n s a q alg pk raw, n_closed n = false -> n_in n = (a, [x14]) :: q ->
  (forall i, e_fetch E i = KOk (alg, pk)) -> pkix_marshal C pk = Some raw -> (forall i b, send i b = true) ->
  let '(_, (n', s')) := udp_exchange C E hostof chunk send n s in
  exists b, n_out n' = n_out n ++ [(Some a, b)] /\ lenN b = 10 + lenN raw.
Proof. exact udp_amplifies. Qed.
Print Assumptions C175_no_amplification_refuted.
Example C175_example :
  (exists pk raw, (forall i, e_fetch ex_E i = KOk (3, pk)) /\ pkix_marshal toy pk = Some raw) /\
  map (fun x => (fst x, lenN (snd x)))
    (n_out (fst (snd (udp_exchange toy ex_E ex_hostof (fun _ => 3) (fun _ _ => true) (ex_net [([x01], [x14])]) (ex_s []))))) = [(Some [x01], 43)].
Proof. split; [do 2 eexists; split; [intros; reflexivity|reflexivity]|vm_compute; reflexivity]. Qed.

(** What holds: whatever the datagram, unless its message reaches the handler, at
    most one datagram is sent, to its source, and its length is bounded by the
    longest error text, the signature and the key. Missing: a bound by the length
    of the request. *)
Theorem C175_no_amplification_partial : forall C, CryptoLaws C -> forall E hostof chunk send n s a d q K G, n_closed n = false -> n_in n = (a, d) :: q ->
  (forall i h x sig, e_sign E i h x = KOk sig -> lenN sig <= G) ->
  (forall i alg pk raw, e_fetch E i = KOk (alg, pk) -> pkix_marshal C pk = Some raw -> lenN raw <= K) ->
  let '(_, (n', s')) := udp_exchange C E hostof chunk send n s in
  s_calls s' <> s_calls s \/ n_out n' = n_out n \/
  exists b, n_out n' = n_out n ++ [(Some a, b)] /\ lenN b <= N.max 65 (N.max (54 + G) (10 + K)).
Proof. exact udp_bounded. Qed.
Print Assumptions C175_no_amplification_partial.
(** The longest error text, for a request of an unknown session. *)
Example C175_partial_example :
  map (fun x => (fst x, lenN (snd x)))
    (n_out (fst (snd (udp_exchange toy ex_E ex_hostof (fun _ => 3) (fun _ _ => true)
      (ex_net [([x01], enc_request (RqProcess (repeat x08 16) 1 [x00] true))]) (ex_s []))))) = [(Some [x01], 65)].
Proof. vm_compute. reflexivity. Qed.
