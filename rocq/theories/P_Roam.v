(** A client over UDP whose address changes. *)
From Verif Require Import Bytes Parser Crypto Toy Wire Replay SpecReplay Server ServerSeq SpecServer MultiConn SpecMulti ServerExamples Keys Client
  ClientSeq SpecE2E ClientExamples ClientProps LongExamples Udp SpecUdp UdpThms SpecUdpLoss SpecRoam RoamProofs.

(** C183. Wanted: a session is the client's, whatever address its datagrams seem
    to come from. It is not so: sessions are kept by host. Once the server sees
    the client at other hosts, where nobody has a session of that id, every
    request is refused as from an unknown client and the handler is never called,
    however many messages follow. *)
Theorem C183_other_address_refuted : forall C CE SE hostof chunk send srv o ses n chost rs hist cs u net sn ss, CryptoLaws C ->
  (forall i, ce_deadline CE i = true) -> (forall i b, lenN b <= 65507 -> send i b = true) -> co_reply o = true ->
  paired C ses chost hist cs ss -> Forall (fun c => c <= c_ctr cs) hist ->
  udp_client u -> n_closed net = false -> n_in net = [] -> n_closed sn = false -> n_in sn = [] -> c_ctr cs + lenN rs < 2 ^ 64 ->
  Forall (fun q => lenN (fst q) + 50 <= 65507 /\ exists h, hostof (snd q) = Some h /\ h <> chost /\ known C ss h (cs_id ses) = None) rs ->
  let '(res, (_, (_, ss'))) := roam C CE SE hostof chunk send srv o ses n rs (u, net) cs sn ss in
  res = map (fun _ => Some (RdErr (RdRemote 3 msg_unknown))) rs /\ seen (s_calls ss') = seen (s_calls ss).
Proof. exact moved. Qed.
Print Assumptions C183_other_address_refuted.
(** The first octet of an address is its host here, the second its port. *)
Example C183_example :
  let hostof (a : bytes) := match a with [x01; _] => Some ex_host | _ => Some (firstn 1 a) end in
  let rs := [([x41], [x07; x01]); ([], [x08; x02]); ([x42; x43], [x07; x03])] in
  paired toy ex_ses ex_host [] (cst0 []) ex_ss /\
  Forall (fun q => exists h, hostof (snd q) = Some h /\ h <> ex_host /\ known toy ex_ss h (cs_id ex_ses) = None) rs /\
  let '(res, (_, (_, s'))) := roam toy ex_CE ex_SE hostof (fun _ => 3) (fun _ b => lenN b <=? 65507) [x02] ex_opts ex_ses 100 rs
    (new_udp false, ex_net []) (cst0 []) (ex_net []) ex_ss in
  res = repeat (Some (RdErr (RdRemote 3 msg_unknown))) 3 /\ s_calls s' = [].
Proof.
  split; [exact (proj1 long_reply_example)|]. split; [|vm_compute; auto].
  repeat constructor; (eexists; split; [reflexivity|]; split; [discriminate|vm_compute; reflexivity]).
Qed.

(** What holds: the port does not matter, and nothing is spoilt meanwhile. Of any
    sequence of messages, those that come from the old host, at whatever port,
    are handled in order, once each, and answered to their Reads; only those that
    come from elsewhere are refused. [home] says which is which. *)
Theorem C183_home_again_partial : forall C CE SE hostof chunk send srv o ses n chost f (home : bytes -> bool) rs hist cs u net sn ss, CryptoLaws C ->
  (forall i, ce_deadline CE i = true) -> (forall i b, lenN b <= 65507 -> send i b = true) -> co_reply o = true ->
  paired C ses chost hist cs ss -> Forall (fun c => c <= c_ctr cs) hist ->
  udp_client u -> n_closed net = false -> n_in net = [] -> n_closed sn = false -> n_in sn = [] -> c_ctr cs + lenN rs < 2 ^ 64 ->
  Forall (fun q => let '(p, a) := q in lenN p + 50 <= 65507 /\
    if home a then hostof a = Some chost /\ (forall i, e_handler SE i true p = HOk (f p)) /\ f p <> [] /\ lenN (f p) + 33 <= 65507 /\ lenN (f p) <= n
    else exists h, hostof a = Some h /\ known C ss h (cs_id ses) = None) rs ->
  let '(res, (_, (_, ss'))) := roam C CE SE hostof chunk send srv o ses n rs (u, net) cs sn ss in
  res = map (fun q => Some (if home (snd q) then RdOk (f (fst q)) true else RdErr (RdRemote 3 msg_unknown))) rs /\
  seen (s_calls ss') = seen (s_calls ss) ++ from_home home (c_ctr cs + 1) rs.
Proof. exact roaming. Qed.
Print Assumptions C183_home_again_partial.
(** A change of port, two messages from elsewhere, and back. *)
Example C183_partial_example :
  let hostof (a : bytes) := match a with [x01; _] => Some ex_host | _ => Some (firstn 1 a) end in
  let home (a : bytes) := match a with [x01; _] => true | _ => false end in
  let rs := [([x41], [x01; x01]); ([x42], [x01; x02]); ([x43], [x07; x02]); ([x44], [x08; x09]); ([x45], [x01; x01])] in
  let f m := m ++ [x21] in
  paired toy ex_ses ex_host [] (cst0 []) ex_ss /\ (forall i p, e_handler ex_SE i true p = HOk (f p)) /\
  map (fun a => known toy ex_ss a (cs_id ex_ses)) [[x07]; [x08]] = [None; None] /\
  let '(res, (_, (_, s'))) := roam toy ex_CE ex_SE hostof (fun _ => 3) (fun _ b => lenN b <=? 65507) [x02] ex_opts ex_ses 100 rs
    (new_udp false, ex_net []) (cst0 []) (ex_net []) ex_ss in
  res = map Some [RdOk [x41; x21] true; RdOk [x42; x21] true; RdErr (RdRemote 3 msg_unknown); RdErr (RdRemote 3 msg_unknown); RdOk [x45; x21] true] /\
  seen (s_calls s') = [(1, true, [x41]); (2, true, [x42]); (5, true, [x45])] /\ from_home home 1 rs = seen (s_calls s').
Proof. split; [exact (proj1 long_reply_example)|]. split; [reflexivity|]. vm_compute. repeat split. Qed.
