(** A server over UDP that is restarted. *)
From Verif Require Import Bytes Parser Crypto Toy Wire WireSeq Replay SpecReplay Server ServerSeq SpecServer ServerProps MultiConn SpecMulti ServerExamples Keys Client
  ClientSeq SpecClient SpecE2E ClientExamples ClientProps LongExamples SpecSystem Udp SpecUdp UdpThms SpecUdpLoss SpecUdpDup SetupTwiceExamples SpecRoam SpecRestart RestartProofs.

(** C185. Wanted: as a UDP client has no connection that could break, it goes on
    after a restart of the server with the same key. It does not: up to the first
    restart every message is handled and answered; after it every Read returns the
    server's error "unknown client", whatever restarts follow, and the handler is
    never called again for this client. *)
Theorem C185_restart_refuted : forall C CE SE hostof chunk send me srv o ses n chost f rs hist cs u net sn ss, CryptoLaws C ->
  (forall i, ce_deadline CE i = true) -> (forall i b, lenN b <= 65507 -> send i b = true) -> co_reply o = true -> hostof me = Some chost ->
  paired C ses chost hist cs ss -> Forall (fun c => c <= c_ctr cs) hist ->
  udp_client u -> n_closed net = false -> n_in net = [] -> n_closed sn = false -> n_in sn = [] ->
  c_ctr cs + lenN (said rs) < 2 ^ 64 -> Forall (fun p => lenN p + 50 <= 65507) (said rs) ->
  Forall (fun p => (forall i, e_handler SE i true p = HOk (f p)) /\ f p <> [] /\ lenN (f p) + 33 <= 65507 /\ lenN (f p) <= n) (before rs) ->
  let '(res, (_, (_, ss'))) := restarts C CE SE hostof chunk send me srv o ses n rs (u, net) cs sn ss in
  res = map (fun p => Some (RdOk (f p) true)) (before rs) ++ map (fun _ => Some (RdErr (RdRemote 3 msg_unknown))) (after rs) /\
  seen (s_calls ss') = seen (s_calls ss) ++ numbered (c_ctr cs + 1) true (before rs).
Proof. exact restarted. Qed.
Print Assumptions C185_restart_refuted.
Example C185_example :
  let rs := [Some [x41]; Some [x42]; None; Some [x43]; None; Some []] in
  before rs = [[x41]; [x42]] /\ after rs = [[x43]; []] /\ paired toy ex_ses ex_host [] (cst0 []) ex_ss /\
  (forall i p, e_handler tw_SE i true p = HOk (p ++ [x21])) /\
  let '(res, (_, (_, s'))) := restarts toy ex_CE tw_SE ex_hostof (fun _ => 3) (fun _ b => lenN b <=? 65507) [x01] [x02] ex_opts ex_ses 100 rs
    (new_udp false, ex_net []) (cst0 []) (ex_net []) ex_ss in
  res = [Some (RdOk [x41; x21] true); Some (RdOk [x42; x21] true); Some (RdErr (RdRemote 3 msg_unknown)); Some (RdErr (RdRemote 3 msg_unknown))] /\
  seen (s_calls s') = [(1, true, [x41]); (2, true, [x42])].
Proof. split; [reflexivity|]. split; [reflexivity|]. split; [exact (proj1 long_reply_example)|]. split; [reflexivity|]. vm_compute. auto. Qed.

(** What holds: a new client helps. After any messages and restarts, a client that
    dials anew, from there or elsewhere, completes the handshake with one request,
    and then every message of it is handled once, in order, and answered. *)
Theorem C185_dial_again_partial : forall C CE SE hostof chunk send me srv o ses n chost f rs hist cs u net sn ss, CryptoLaws C ->
  (forall i, ce_deadline CE i = true) -> (forall i b, lenN b <= 65507 -> send i b = true) -> co_reply o = true -> hostof me = Some chost ->
  paired C ses chost hist cs ss -> Forall (fun c => c <= c_ctr cs) hist ->
  udp_client u -> n_closed net = false -> n_in net = [] -> n_closed sn = false -> n_in sn = [] ->
  c_ctr cs + lenN (said rs) < 2 ^ 64 -> Forall (fun p => lenN p + 50 <= 65507) (said rs) ->
  Forall (fun p => (forall i, e_handler SE i true p = HOk (f p)) /\ f p <> [] /\ lenN (f p) + 33 <= 65507 /\ lenN (f p) <= n) (before rs) ->
  let '(_, (_, (sn1, ss1))) := restarts C CE SE hostof chunk send me srv o ses n rs (u, net) cs sn ss in
  forall CE2 me2 chost2 host csk rnd ssk, undisturbed C CE2 SE chost2 host csk rnd ssk -> hostof me2 = Some chost2 ->
  (forall i m sig, e_sign SE i SHA512 m = KOk sig -> lenN sig + 54 <= 65507) ->
  let q := enc_request (RqSetup (uuid_of rnd) (x_pub C csk)) in
  let '(out, (sn2, ss2)) := serve_each C SE hostof chunk send me2 [q] sn1 ss1 in
  forall u2 net2 cs2, udp_client u2 -> n_closed net2 = false -> n_in net2 = map (pair srv) out -> c_buf cs2 = [] ->
  let '(h, ((u3, net3), cs3)) := ucrun C CE2 chunk send (handshake C (Some host)) (u2, net2) cs2 in
  left_since net2 net3 = [q] /\ exists ses2, h = Some (inr ses2) /\
  forall ps, c_ctr cs2 + lenN ps < 2 ^ 64 -> Forall (fun p => lenN p + 50 <= 65507) ps ->
  Forall (fun p => (forall i, e_handler SE i true p = HOk (f p)) /\ f p <> [] /\ lenN (f p) + 33 <= 65507 /\ lenN (f p) <= n) ps ->
  let '(res, (_, (_, ss'))) := restarts C CE2 SE hostof chunk send me2 srv o ses2 n (map Some ps) (u3, net3) cs3 sn2 ss2 in
  res = map (fun p => Some (RdOk (f p) true)) ps /\ seen (s_calls ss') = seen (s_calls ss1) ++ numbered (c_ctr cs2 + 1) true ps.
Proof. exact dial_again. Qed.
Print Assumptions C185_dial_again_partial.
Example C185_partial_example :
  let go {A} (ce : cenv) (p : cprog A) := ucrun toy ce (fun _ => 3) (fun _ b => lenN b <=? 65507) p in
  let run (ses : csession) := restarts toy ex_CE tw_SE ex_hostof (fun _ => 3) (fun _ b => lenN b <=? 65507) [x01] [x02] ex_opts ses 100 in
  undisturbed toy ex_CE tw_SE ex_host ex_name ex_csk ex_rnd ex_sign_key /\ ex_hostof [x01] = Some ex_host /\
  let '(_, (_, (sn1, ss1))) := run ex_ses [Some [x41]; None; Some [x43]] (new_udp false, ex_net []) (cst0 []) (ex_net []) ex_ss in
  let '(out, (sn2, ss2)) := serve_each toy tw_SE ex_hostof (fun _ => 3) (fun _ b => lenN b <=? 65507) [x01] [tw_q] sn1 ss1 in
  let '(h, (x3, cs3)) := go ex_CE (handshake toy (Some ex_name)) (new_udp false, ex_net (map (pair [x02]) out)) (cst0 []) in
  match h with
  | Some (inr ses2) =>
      let '(res, (_, (_, s'))) := run ses2 [Some [x44]; Some [x45]] x3 cs3 sn2 ss2 in
      res = [Some (RdOk [x44; x21] true); Some (RdOk [x45; x21] true)] /\ seen (s_calls s') = [(1, true, [x41]); (1, true, [x44]); (2, true, [x45])]
  | _ => False
  end.
Proof. split; [exact (proj1 tw_undisturbed)|]. split; [reflexivity|]. vm_compute. auto. Qed.
