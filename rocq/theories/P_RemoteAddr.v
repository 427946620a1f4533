(** The address a handler is given over UDP. *)
From Verif Require Import Bytes Parser Crypto Toy Wire WireSeq Replay SpecReplay Server ServerSeq SpecServer MultiConn SpecMulti ServerExamples Keys Client
  ClientSeq SpecE2E ClientExamples ClientProps LongExamples Udp SpecUdp UdpThms SpecUdpLoss RemoteAddr RemoteAddrProofs.

(** C180. Wanted: the handler is given the address of the client that wrote the
    message. It is not so over UDP. Whoever sees a request and sends the same
    octets from another port of the client's host ([other]; behind one NAT, or
    with a forged source), before the client's datagram arrives, has the handler
    called with that address, and the reply [rep], which the client would have
    read, is sent there. The client's own datagram calls no handler, and its Read
    reports a replay. *)
Theorem C180_address_of_the_client_refuted : forall C CE SE hostof chunk send me other srv o ses n chost f p hist cs u net sn ss, CryptoLaws C ->
  (forall i, ce_deadline CE i = true) -> (forall i b, lenN b <= 65507 -> send i b = true) ->
  hostof me = Some chost -> hostof other = Some chost -> co_reply o = true ->
  paired C ses chost hist cs ss -> Forall (fun c => c <= c_ctr cs) hist ->
  udp_client u -> n_closed net = false -> n_in net = [] -> n_closed sn = false -> n_in sn = [] ->
  c_ctr cs + 1 < 2 ^ 64 -> lenN p + 50 <= 65507 -> (forall i, e_handler SE i true p = HOk (f p)) ->
  f p <> [] /\ lenN (f p) + 33 <= 65507 /\ lenN (f p) <= n ->
  let '(_, ((u1, net1), c1)) := ucrun C CE chunk send (client_write C o ses p) (u, net) cs in
  exists q rep err, left_since net net1 = [q] /\
  told_exchange C SE hostof chunk send (arrive other q sn) ss = [(other, p)] /\
  let '(_, (sn1, s1)) := udp_exchange C SE hostof chunk send (arrive other q sn) ss in
  n_out sn1 = n_out sn ++ [(Some other, rep)] /\
  fst (ucrun C CE chunk send (client_read C o ses n) (u1, arrive srv rep net1) c1) = Some (RdOk (f p) true) /\
  told_exchange C SE hostof chunk send (arrive me q sn1) s1 = [] /\
  let '(_, (sn2, _)) := udp_exchange C SE hostof chunk send (arrive me q sn1) s1 in
  n_out sn2 = n_out sn1 ++ [(Some me, err)] /\
  fst (ucrun C CE chunk send (client_read C o ses n) (u1, arrive srv err net1) c1) = Some (RdErr (RdRemote 5 msg_replay)).
Proof. exact hijack. Qed.
Print Assumptions C180_address_of_the_client_refuted.
(** The client is at [01], the other one at [02]; both are on one host. *)
Example C180_example :
  let f m := m ++ [x21] in let send := fun (_ : nat) b => lenN b <=? 65507 in
  paired toy ex_ses ex_host [] (cst0 []) ex_ss /\ ex_hostof [x01] = Some ex_host /\ ex_hostof [x02] = Some ex_host /\
  let '(_, ((u1, net1), c1)) := ucrun toy ex_CE (fun _ => 3) send (client_write toy ex_opts ex_ses [x41]) (new_udp false, ex_net []) (cst0 []) in
  let q := concat (left_since (ex_net []) net1) in
  told_exchange toy ex_SE ex_hostof (fun _ => 3) send (arrive [x02] q (ex_net [])) ex_ss = [([x02], [x41])] /\
  let '(_, (sn1, s1)) := udp_exchange toy ex_SE ex_hostof (fun _ => 3) send (arrive [x02] q (ex_net [])) ex_ss in
  map fst (n_out sn1) = [Some [x02]] /\ told_exchange toy ex_SE ex_hostof (fun _ => 3) send (arrive [x01] q sn1) s1 = [].
Proof. split; [exact (proj1 long_reply_example)|]. vm_compute. auto 10. Qed.

(** What holds, for every datagram and every state: each call of the handler is
    given the source of the datagram, and that address is on a host under whose
    name the server keeps the session that the message is of. *)
Theorem C180_address_partial : forall C E hostof chunk send n s a d q, n_closed n = false -> n_in n = (a, d) :: q ->
  let '(_, (_, s')) := udp_exchange C E hostof chunk send n s in
  exists l, s_calls s' = s_calls s ++ l /\ told_exchange C E hostof chunk send n s = map (fun q => (a, snd q)) l /\
  Forall (fun q => exists h id, hostof a = Some h /\ s_map s (session_key C h id) = Some (fst (fst (fst q)))) l.
Proof. exact told_host. Qed.
Print Assumptions C180_address_partial.
Example C180_partial_example :
  let n := ex_net [([x01], enc_request (ex_process 5 [x41] true))] in
  told_exchange toy ex_E ex_hostof (fun _ => 3) (fun _ _ => true) n (ex_s []) = [([x01], [x41])] /\
  ex_hostof [x01] = Some ex_host /\ s_map (ex_s []) (session_key toy ex_host ex_id) = Some 0%nat.
Proof. vm_compute. auto. Qed.
