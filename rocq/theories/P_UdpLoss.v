(** UDP loses datagrams. *)
From Verif Require Import Bytes Parser Crypto Toy Wire Replay SpecReplay Server ServerSeq SpecServer MultiConn SpecMulti ServerExamples Keys Client
  ClientSeq SpecE2E ClientExamples ClientProps LongExamples Udp SpecUdp UdpThms SpecUdpLoss UdpLoss.

(** C160. A client and a server share a session. For every message the client
    writes once and reads any positive number of times; any of the requests and
    any of the replies are lost. Then a Read whose request and reply arrived has
    the whole reply, every Read without a reply ends with an error, and the
    handler saw the messages of the requests that arrived, once each and in
    order. *)
Theorem C160_loss_costs_one_exchange : forall C CE SE hostof chunk send me srv o ses n chost f rs hist cs u net sn ss, CryptoLaws C ->
  (forall i, ce_deadline CE i = true) -> (forall i b, lenN b <= 65507 -> send i b = true) ->
  hostof me = Some chost -> co_reply o = true ->
  paired C ses chost hist cs ss -> Forall (fun c => c <= c_ctr cs) hist ->
  udp_client u -> n_closed net = false -> n_in net = [] -> n_closed sn = false -> n_in sn = [] ->
  c_ctr cs + lenN rs < 2 ^ 64 ->
  Forall (fun q => let p := fst (fst q) in
    lenN p + 50 <= 65507 /\ (forall i, e_handler SE i true p = HOk (f p)) /\ f p <> [] /\ lenN (f p) + 33 <= 65507 /\ lenN (f p) <= n) rs ->
  let '(res, (_, (_, ss'))) := lossy C CE SE hostof chunk send me srv o ses n rs (u, net) cs sn ss in
  Forall2 (round_good f) rs res /\ seen (s_calls ss') = seen (s_calls ss) ++ heard (c_ctr cs + 1) rs.
Proof. exact udp_lossy. Qed.
Print Assumptions C160_loss_costs_one_exchange.
(** Two losses and a second Read. *)
Example C160_example :
  let f m := m ++ [x21] in
  let rs := [([x41], Arrives, 0%nat); ([x42], RequestLost, 0%nat); ([x43], ReplyLost, 1%nat); ([x44; x45], Arrives, 1%nat)] in
  paired toy ex_ses ex_host [] (cst0 []) ex_ss /\ (forall i p, e_handler ex_SE i true p = HOk (f p)) /\
  let '(res, (_, (_, s'))) := lossy toy ex_CE ex_SE ex_hostof (fun _ => 3) (fun _ b => lenN b <=? 65507) [x01] [x02] ex_opts ex_ses 100 rs
    (new_udp false, ex_net []) (cst0 []) (ex_net []) ex_ss in
  res = [[Some (RdOk [x41; x21] true)]; [Some (RdErr (RdParse EIO))]; [Some (RdErr (RdParse EIO)); Some (RdErr (RdParse EIO))];
         [Some (RdOk [x44; x45; x21] true); Some (RdErr (RdParse EShort))]] /\
  seen (s_calls s') = [(1, true, [x41]); (3, true, [x43]); (4, true, [x44; x45])].
Proof. split; [exact (proj1 long_reply_example)|]. split; [reflexivity|]. vm_compute. split; reflexivity. Qed.
