(** A Setup request that UDP delivers more than once. *)
From Verif Require Import Bytes Parser Crypto Toy Kdf Wire WireSeq Replay SpecReplay Server ServerSeq SpecServer ServerProps ServerProps2 ServerExamples Keys Client
  ClientSeq SpecClient SpecE2E ClientExamples SpecSystem Udp SpecUdp UdpThms SpecUdpLoss SpecUdpDup SetupTwiceExamples SetupTwiceProofs SetupDialProofs.

(** C181. Wanted: a datagram of the handshake that the network delivers twice does
    no harm. It is not so. The Setup request of a client over UDP arrives twice or
    more, with nobody attacking. The server answers every copy, each time with a
    key pair of its own, and keeps the last. A client that takes the first answer
    is lost: whatever of the other answers reaches it, and as long as what it
    seals does not happen to open under the other key, every Read of every
    exchange fails, and the handler is never called. *)
Theorem C181_setup_twice_harmless_refuted : forall C CE SE hostof chunk send me srv chost, CryptoLaws C ->
  (forall i, ce_deadline CE i = true) -> (forall i b, lenN b <= 65507 -> send i b = true) -> hostof me = Some chost ->
  forall id csk ss sn k, let pub := x_pub C csk in request_ok (RqSetup id pub) ->
  (forall i, exists sk, e_gen SE i = Some sk /\ x_dh C sk pub <> None) -> (forall i, e_store SE i = true) ->
  (forall i m, exists sig, e_sign SE i SHA512 m = KOk sig /\ lenN sig + 54 <= 65507) ->
  wf ss -> n_closed sn = false -> n_in sn = [] ->
  let answer x := enc_response (RsSetup (x_pub C (fst x)) 4 (snd x)) in
  let '(out, (sn1, ss1)) := serve_each C SE hostof chunk send me (repeat (enc_request (RqSetup id pub)) (2 + k)) sn ss in
  exists x l y, out = map answer (x :: l ++ [y]) /\ length l = k /\ s_calls ss1 = s_calls ss /\
  forall o ses n key1 sec2 key2 ps cs u net late, co_reply o = true -> cs_id ses = id ->
  x_dh C csk (x_pub C (fst x)) = Some (cs_secret ses) -> client_gcm C (cs_secret ses) = Some key1 ->
  x_dh C csk (x_pub C (fst y)) = Some sec2 -> new_gcm C sec2 = Some key2 ->
  c_buf cs = [] -> udp_client u -> n_closed net = false -> n_in net = map (fun x => (srv, answer x)) late ->
  (forall x, In x late -> In x (l ++ [y])) -> c_ctr cs + lenN ps < 2 ^ 64 -> Forall (fun p => lenN p + 50 <= 65507) ps ->
  Forall (fun x => let '(c, _, p) := x in let nonce := x00 :: repeat x00 3 ++ be_enc 8 c in
    gcm_open C key2 nonce (gcm_seal C key1 nonce p) = None) (numbered (c_ctr cs + 1) true ps) ->
  let '(res, (_, (_, ss2))) := lossy C CE SE hostof chunk send me srv o ses n (map (fun p => (p, Arrives, 0%nat)) ps) (u, net) cs sn1 ss1 in
  length res = length ps /\ Forall (fun r => exists e, r = [Some (RdErr e)]) res /\ s_calls ss2 = s_calls ss.
Proof. exact setup_twice. Qed.
Print Assumptions C181_setup_twice_harmless_refuted.
(** Two copies; the client takes the first answer, and the second comes late or
    never. The client that took the second is served. *)
Example C181_example :
  let answer i := enc_response (RsSetup (x_pub toy (tw_key i)) 4
    (match sign toy ex_sign_key [] SHA512 (be_enc 4 44 ++ pkix_x25519 (x_pub toy ex_csk) ++ be_enc 4 44 ++ pkix_x25519 (x_pub toy (tw_key i)) ++ uuid_of ex_rnd) with KOk s => s | _ => [] end)) in
  let reads i late := fst (tw_run i late [[x41]; [x42; x43]; []]) in
  let seals c p k1 k2 := gcm_open toy (tw_gcm k2) (x00 :: repeat x00 3 ++ be_enc 8 c) (gcm_seal toy (tw_gcm k1) (x00 :: repeat x00 3 ++ be_enc 8 c) p) in
  fst tw_server = [answer 0%nat; answer 4%nat] /\
  map (fun x => seals (fst x) (snd x) 0%nat 4%nat) [(1, [x41]); (2, [x42; x43]); (3, [])] = [None; None; None] /\
  reads 0%nat [] = [[Some (RdErr (RdRemote 2 msg_decrypt))]; [Some (RdErr (RdRemote 2 msg_decrypt))]; [Some (RdErr (RdRemote 2 msg_decrypt))]] /\
  reads 0%nat [answer 4%nat] = [[Some (RdErr (RdParse ELimit))]; [Some (RdErr (RdRemote 2 msg_decrypt))]; [Some (RdErr (RdRemote 2 msg_decrypt))]] /\
  reads 4%nat [] = [[Some (RdOk [x41; x21] true)]; [Some (RdOk [x42; x43; x21] true)]; [Some (RdOk [x21] true)]].
Proof. vm_compute. repeat split. Qed.

(** The same from the first octet: the client dials with the real handshake. It
    succeeds, with the server's signature verified, on the first answer. After that
    every Read fails, and the handler is never called. *)
Theorem C181_dial_then_nothing_refuted : forall C CE SE hostof chunk send me srv chost host csk rnd ssk, CryptoLaws C ->
  undisturbed C CE SE chost host csk rnd ssk -> (forall i b, lenN b <= 65507 -> send i b = true) -> hostof me = Some chost ->
  (forall i m sig, e_sign SE i SHA512 m = KOk sig -> lenN sig + 54 <= 65507) ->
  forall ss sn k, wf ss -> n_closed sn = false -> n_in sn = [] ->
  let q := enc_request (RqSetup (uuid_of rnd) (x_pub C csk)) in
  let '(out, (sn1, ss1)) := serve_each C SE hostof chunk send me (repeat q (2 + k)) sn ss in
  s_calls ss1 = s_calls ss /\ exists first others, out = first :: others /\ length others = (1 + k)%nat /\
  exists sec2 key2, known C ss1 chost (uuid_of rnd) = Some {| ses_secret := sec2; ses_win := new_window |} /\ new_gcm C sec2 = Some key2 /\
  forall late u net cs, incl late others -> udp_client u -> n_closed net = false -> n_in net = map (pair srv) (first :: late) -> c_buf cs = [] ->
  let '(h, ((u1, net1), cs1)) := ucrun C CE chunk send (handshake C (Some host)) (u, net) cs in
  left_since net net1 = [q] /\ exists ses key1, h = Some (inr ses) /\ cs_id ses = uuid_of rnd /\ client_gcm C (cs_secret ses) = Some key1 /\
  forall o n ps, co_reply o = true -> c_ctr cs + lenN ps < 2 ^ 64 -> Forall (fun p => lenN p + 50 <= 65507) ps ->
  Forall (fun x => let '(c, _, p) := x in let nonce := x00 :: repeat x00 3 ++ be_enc 8 c in
    gcm_open C key2 nonce (gcm_seal C key1 nonce p) = None) (numbered (c_ctr cs + 1) true ps) ->
  let '(res, (_, (_, ss2))) := lossy C CE SE hostof chunk send me srv o ses n (map (fun p => (p, Arrives, 0%nat)) ps) (u1, net1) cs1 sn1 ss1 in
  length res = length ps /\ Forall (fun r => exists e, r = [Some (RdErr e)]) res /\ s_calls ss2 = s_calls ss.
Proof. exact dial_then_nothing. Qed.
Print Assumptions C181_dial_then_nothing_refuted.
(** Three copies: the client takes the first answer and sees nothing else, then one
    of the others; with a single copy all is well. *)
Example C181_dial_example :
  (undisturbed toy ex_CE tw_SE ex_host ex_name ex_csk ex_rnd ex_sign_key /\
   forall i m sig, e_sign tw_SE i SHA512 m = KOk sig -> lenN sig + 54 <= 65507) /\
  let bad := [Some (RdErr (RdRemote 2 msg_decrypt))] in
  tw_dial 3 (firstn 1) [[x41]; [x42]] = Some (true, [bad; bad], []) /\
  tw_dial 3 (fun l => firstn 1 l ++ skipn 2 l) [[x41]; [x42]] = Some (true, [[Some (RdErr (RdParse ELimit))]; bad], []) /\
  option_map (fun x => fst x) (tw_dial 1 (fun l => l) [[x41]; [x42]]) =
    Some (true, [[Some (RdOk [x41; x21] true)]; [Some (RdOk [x42; x21] true)]]).
Proof. split; [exact tw_undisturbed|]. vm_compute. repeat split. Qed.

(** What holds: however often the Setup request arrives, no handler is called, the
    sessions of all others stay, and whoever takes the last answer shares the
    session with the server. *)
Theorem C181_setup_copies_partial : forall C SE hostof chunk send me chost, CryptoLaws C ->
  (forall i b, lenN b <= 65507 -> send i b = true) -> hostof me = Some chost ->
  forall id csk ss sn k, let pub := x_pub C csk in request_ok (RqSetup id pub) ->
  (forall i, exists sk, e_gen SE i = Some sk /\ x_dh C sk pub <> None) -> (forall i, e_store SE i = true) ->
  (forall i m, exists sig, e_sign SE i SHA512 m = KOk sig /\ lenN sig + 54 <= 65507) ->
  wf ss -> n_closed sn = false -> n_in sn = [] ->
  let answer x := enc_response (RsSetup (x_pub C (fst x)) 4 (snd x)) in
  let '(out, (sn1, ss1)) := serve_each C SE hostof chunk send me (repeat (enc_request (RqSetup id pub)) (1 + k)) sn ss in
  exists l x, out = map answer (l ++ [x]) /\ length l = k /\ n_closed sn1 = false /\ n_in sn1 = [] /\ s_calls ss1 = s_calls ss /\
  (forall ses cs, cs_id ses = id -> x_dh C csk (x_pub C (fst x)) = Some (cs_secret ses) -> c_buf cs = [] -> paired C ses chost [] cs ss1) /\
  forall h i, length i = 16%nat -> (h, i) <> (chost, id) -> known C ss1 h i = known C ss h i \/ collision C h i chost id.
Proof. exact setup_copies. Qed.
Print Assumptions C181_setup_copies_partial.
Example C181_partial_example :
  let id := uuid_of ex_rnd in let pub := x_pub toy ex_csk in
  request_ok (RqSetup id pub) /\ (forall i, exists sk, e_gen tw_SE i = Some sk /\ x_dh toy sk pub <> None) /\
  (forall i m, exists sig, e_sign tw_SE i SHA512 m = KOk sig /\ lenN sig + 54 <= 65507) /\ wf (sst0 []) /\
  let '(out, (_, ss1)) := serve_each toy tw_SE ex_hostof (fun _ => 3) (fun _ b => lenN b <=? 65507) [x01] (repeat tw_q 3) (ex_net []) (sst0 []) in
  map (fun b => takeN 1 (dropN 17 b)) out = [[x05]; [x09]; [x0d]] /\ s_calls ss1 = [] /\
  known toy ss1 ex_host id = Some {| ses_secret := tw_secret 8; ses_win := new_window |}.
Proof. exact tw_example. Qed.
