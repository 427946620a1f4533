(** UDP duplicates datagrams. *)
From Verif Require Import Bytes Parser Crypto Toy Wire Replay SpecReplay Server ServerSeq SpecServer MultiConn SpecMulti ServerExamples Keys Client
  ClientSeq SpecE2E ClientExamples ClientProps LongExamples SpecSystem Udp SpecUdp UdpThms SpecUdpLoss SpecUdpDup UdpDup.

(** C161. Wanted: a request that the network delivers twice does no harm. It is
    not so. A client and a server share a session, and all answers arrive. One
    request arrives more than once, each of the later ones at least once. Then
    the client has the reply to the first message, and every Read of every later
    exchange fails, for ever and however often the client reads, although the
    handler saw each message once and in order: the refusal of the copy is taken
    for the next answer, and from then on every answer is one exchange late. *)
Theorem C161_duplicates_harmless_refuted : forall C CE SE hostof chunk send me srv o ses n chost f p j k rs hist cs u net sn ss, CryptoLaws C ->
  (forall i, ce_deadline CE i = true) -> (forall i b, lenN b <= 65507 -> send i b = true) -> hostof me = Some chost -> co_reply o = true ->
  paired C ses chost hist cs ss -> Forall (fun c => c <= c_ctr cs) hist ->
  udp_client u -> n_closed net = false -> n_in net = [] -> n_closed sn = false -> n_in sn = [] ->
  let all := (p, S (S j), k) :: rs in
  c_ctr cs + lenN all < 2 ^ 64 ->
  Forall (fun q => let p := fst (fst q) in
    lenN p + 50 <= 65507 /\ (forall i, e_handler SE i true p = HOk (f p)) /\ f p <> [] /\ lenN (f p) + 33 <= 65507 /\ lenN (f p) <= n) all ->
  Forall (fun q => (1 <= snd (fst q))%nat) rs ->
  let '(res, (_, (_, ss'))) := copied C CE SE hostof chunk send me srv o ses n all (u, net) cs sn ss in
  (exists r1 res', res = (Some (RdOk (f p) true) :: r1) :: res' /\ length res' = length rs /\ Forall (Forall failed) res') /\
  seen (s_calls ss') = seen (s_calls ss) ++ numbered (c_ctr cs + 1) true (map (fun q => fst (fst q)) all).
Proof. exact udp_twice. Qed.
Print Assumptions C161_duplicates_harmless_refuted.
Example C161_example :
  let f m := m ++ [x21] in
  let rs := [([x41], 2%nat, 0%nat); ([x42], 1%nat, 0%nat); ([x43], 1%nat, 1%nat); ([x44; x45], 1%nat, 0%nat)] in
  paired toy ex_ses ex_host [] (cst0 []) ex_ss /\ (forall i p, e_handler ex_SE i true p = HOk (f p)) /\
  let '(res, (_, (_, s'))) := copied toy ex_CE ex_SE ex_hostof (fun _ => 3) (fun _ b => lenN b <=? 65507) [x01] [x02] ex_opts ex_ses 100 rs
    (new_udp false, ex_net []) (cst0 []) (ex_net []) ex_ss in
  res = [[Some (RdOk [x41; x21] true)]; [Some (RdErr (RdRemote 5 msg_replay))];
         [Some (RdErr RdCounter); Some (RdErr (RdParse EShort))]; [Some (RdErr RdCounter)]] /\
  seen (s_calls s') = [(1, true, [x41]); (2, true, [x42]); (3, true, [x43]); (4, true, [x44; x45])].
Proof. split; [exact (proj1 long_reply_example)|]. split; [reflexivity|]. vm_compute. split; reflexivity. Qed.

(** What holds: however often every request arrives, the handler sees each
    message that arrived once and in order, and no Read gives anything but the
    reply to the message of its exchange. *)
Theorem C161_duplicates_safe_partial : forall C CE SE hostof chunk send me srv o ses n chost f rs hist cs u net sn ss, CryptoLaws C ->
  (forall i, ce_deadline CE i = true) -> (forall i b, lenN b <= 65507 -> send i b = true) -> hostof me = Some chost -> co_reply o = true ->
  paired C ses chost hist cs ss -> Forall (fun c => c <= c_ctr cs) hist ->
  udp_client u -> n_closed net = false -> n_in net = [] -> n_closed sn = false -> n_in sn = [] ->
  c_ctr cs + lenN rs < 2 ^ 64 ->
  Forall (fun q => let p := fst (fst q) in
    lenN p + 50 <= 65507 /\ (forall i, e_handler SE i true p = HOk (f p)) /\ f p <> [] /\ lenN (f p) + 33 <= 65507 /\ lenN (f p) <= n) rs ->
  let '(res, (_, (_, ss'))) := copied C CE SE hostof chunk send me srv o ses n rs (u, net) cs sn ss in
  Forall2 (round_safe f) rs res /\ seen (s_calls ss') = seen (s_calls ss) ++ arrived (c_ctr cs + 1) rs.
Proof. exact udp_copied. Qed.
Print Assumptions C161_duplicates_safe_partial.
(** A loss after a duplicate brings the answers back into step. *)
Example C161_partial_example :
  let f m := m ++ [x21] in
  let rs := [([x41], 2%nat, 0%nat); ([x42], 0%nat, 0%nat); ([x43], 1%nat, 0%nat); ([x44; x45], 3%nat, 1%nat); ([x46], 1%nat, 0%nat)] in
  paired toy ex_ses ex_host [] (cst0 []) ex_ss /\ (forall i p, e_handler ex_SE i true p = HOk (f p)) /\
  let '(res, (_, (_, s'))) := copied toy ex_CE ex_SE ex_hostof (fun _ => 3) (fun _ b => lenN b <=? 65507) [x01] [x02] ex_opts ex_ses 100 rs
    (new_udp false, ex_net []) (cst0 []) (ex_net []) ex_ss in
  res = [[Some (RdOk [x41; x21] true)]; [Some (RdErr (RdRemote 5 msg_replay))]; [Some (RdOk [x43; x21] true)];
         [Some (RdOk [x44; x45; x21] true); Some (RdErr (RdParse EShort))]; [Some (RdErr (RdRemote 5 msg_replay))]] /\
  seen (s_calls s') = [(1, true, [x41]); (3, true, [x43]); (4, true, [x44; x45]); (5, true, [x46])].
Proof. split; [exact (proj1 long_reply_example)|]. split; [reflexivity|]. vm_compute. split; reflexivity. Qed.
