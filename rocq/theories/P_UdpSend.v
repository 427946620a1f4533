(** Messages sent over UDP without asking for replies. *)
From Verif Require Import Bytes Parser Crypto Toy Wire WireSeq Replay SpecReplay Server ServerSeq SpecServer MultiConn SpecMulti ServerExamples Keys System
  SpecSystem SystemExamples Client ClientSeq SpecE2E ClientExamples LongExamples Udp SpecUdp UdpThms SpecUdpLoss SpecUdpDup UdpSend.

(** C162. Wanted: the handler gets messages for which no replies are asked in the
    order in which they were written. Over UDP it is not so, even without loss.
    A client writes [a] and then [b]; the datagrams change places on the way, or
    the goroutines that handle them do. Then the handler gets [b] before [a], and
    the client hears nothing. *)
Theorem C162_written_order_refuted : forall C CE SE hostof chunk send me o ses n chost a b hist cs u net sn ss, CryptoLaws C ->
  (forall i, ce_deadline CE i = true) -> (forall i b, lenN b <= 65507 -> send i b = true) -> hostof me = Some chost -> co_reply o = false ->
  paired C ses chost hist cs ss -> Forall (fun c => c <= c_ctr cs) hist ->
  udp_client u -> n_closed net = false -> n_closed sn = false -> n_in sn = [] ->
  c_ctr cs + 2 < 2 ^ 64 -> Forall (fun p => lenN p + 50 <= 65507 /\ forall i, exists a, e_handler SE i false p = HOk a) [a; b] ->
  let '(w, ((_, net'), _)) := ucrun C CE chunk send (exchange C o ses n [a; b]) (u, net) cs in
  exists d1 d2, left_since net net' = [d1; d2] /\
  let '(back, (_, ss')) := serve_each C SE hostof chunk send me [d2; d1] sn ss in
  w = Some [] /\ back = [] /\ seen (s_calls ss') = seen (s_calls ss) ++ [(c_ctr cs + 2, false, b); (c_ctr cs + 1, false, a)].
Proof. exact udp_unasked_swap. Qed.
Print Assumptions C162_written_order_refuted.
Example C162_example :
  paired toy ex_ses ex_host [] (cst0 []) ex_ss /\ co_reply sys_quiet = false /\
  (forall i p, exists a, e_handler ex_SE i false p = HOk a) /\
  let '(w, ((_, net'), _)) := ucrun toy ex_CE (fun _ => 3) (fun _ b => lenN b <=? 65507) (exchange toy sys_quiet ex_ses 100 [[x41]; [x42]])
    (new_udp false, ex_net []) (cst0 []) in
  let ds := left_since (ex_net []) net' in
  let '(back, (_, s')) := serve_each toy ex_SE ex_hostof (fun _ => 3) (fun _ b => lenN b <=? 65507) [x01] (rev ds) (ex_net []) ex_ss in
  w = Some [] /\ length ds = 2%nat /\ back = [] /\ seen (s_calls s') = [(2, false, [x42]); (1, false, [x41])].
Proof. split; [exact (proj1 long_reply_example)|]. split; [reflexivity|]. split; [eexists; reflexivity|]. vm_compute. auto. Qed.

(** What holds: whichever of the datagrams arrive, in whatever order and however
    often, the handler gets the messages of those that a filter with a window of
    64 accepts, in the order of arrival, and only the others are answered. *)
Theorem C162_arrivals_partial : forall C CE SE hostof chunk send me o ses n chost ps idx hist cs u net sn ss, CryptoLaws C ->
  (forall i, ce_deadline CE i = true) -> (forall i b, lenN b <= 65507 -> send i b = true) -> hostof me = Some chost -> co_reply o = false ->
  paired C ses chost hist cs ss -> udp_client u -> n_closed net = false -> n_closed sn = false -> n_in sn = [] ->
  c_ctr cs + lenN ps < 2 ^ 64 -> Forall (fun p => lenN p + 50 <= 65507 /\ forall i, exists a, e_handler SE i false p = HOk a) ps ->
  Forall (fun i => (i < length ps)%nat) idx ->
  let '(w, ((_, net'), _)) := ucrun C CE chunk send (exchange C o ses n ps) (u, net) cs in
  let ds := left_since net net' in
  let '(back, (_, ss')) := serve_each C SE hostof chunk send me (map (fun i => nth i ds []) idx) sn ss in
  let number i := c_ctr cs + 1 + N.of_nat i in
  w = Some [] /\ length ds = length ps /\
  exists before rs final, length before = length hist /\ filter_run 64 [] (hist ++ map number idx) (before ++ rs) final /\
    seen (s_calls ss') = seen (s_calls ss) ++ map (fun i => (number i, false, nth i ps [])) (kept idx rs) /\
    length back = length (kept idx (map negb rs)).
Proof. exact udp_unasked. Qed.
Print Assumptions C162_arrivals_partial.
(** The second message arrives twice, the third not at all. *)
Example C162_arrivals_example :
  let ps := [[x41]; [x42]; [x43]; [x44]] in
  paired toy ex_ses ex_host [] (cst0 []) ex_ss /\ (forall i p, exists a, e_handler ex_SE i false p = HOk a) /\
  let '(w, ((_, net'), _)) := ucrun toy ex_CE (fun _ => 3) (fun _ b => lenN b <=? 65507) (exchange toy sys_quiet ex_ses 100 ps)
    (new_udp false, ex_net []) (cst0 []) in
  let ds := left_since (ex_net []) net' in
  let '(back, (_, s')) := serve_each toy ex_SE ex_hostof (fun _ => 3) (fun _ b => lenN b <=? 65507) [x01]
    (map (fun i => nth i ds []) [1; 3; 0; 1]%nat) (ex_net []) ex_ss in
  w = Some [] /\ length ds = 4%nat /\ back = [enc_response (RsError 5 msg_replay)] /\
  seen (s_calls s') = [(2, false, [x42]); (4, false, [x44]); (1, false, [x41])].
Proof. split; [exact (proj1 long_reply_example)|]. split; [eexists; reflexivity|]. vm_compute. auto. Qed.

(** In particular, of datagrams that arrive at most once each, none of them 64 or
    more behind, all are handled, once and in the order of arrival, and none is
    answered. *)
Theorem C162_in_window_partial : forall C CE SE hostof chunk send me o ses n chost ps idx hist cs u net sn ss, CryptoLaws C ->
  (forall i, ce_deadline CE i = true) -> (forall i b, lenN b <= 65507 -> send i b = true) -> hostof me = Some chost -> co_reply o = false ->
  paired C ses chost hist cs ss -> Forall (fun c => c <= c_ctr cs) hist ->
  udp_client u -> n_closed net = false -> n_closed sn = false -> n_in sn = [] ->
  c_ctr cs + lenN ps < 2 ^ 64 -> Forall (fun p => lenN p + 50 <= 65507 /\ forall i, exists a, e_handler SE i false p = HOk a) ps ->
  Forall (fun i => (i < length ps)%nat) idx -> NoDup idx ->
  (forall l i l', idx = l ++ i :: l' -> forall j, In j l -> (j < i + 64)%nat) ->
  let '(w, ((_, net'), _)) := ucrun C CE chunk send (exchange C o ses n ps) (u, net) cs in
  let ds := left_since net net' in
  let '(back, (_, ss')) := serve_each C SE hostof chunk send me (map (fun i => nth i ds []) idx) sn ss in
  w = Some [] /\ length ds = length ps /\ back = [] /\
  seen (s_calls ss') = seen (s_calls ss) ++ map (fun i => (c_ctr cs + 1 + N.of_nat i, false, nth i ps [])) idx.
Proof. exact udp_unasked_window. Qed.
Print Assumptions C162_in_window_partial.
Example C162_in_window_example :
  let idx := [2; 0; 3]%nat in
  Forall (fun i => (i < 4)%nat) idx /\ NoDup idx /\ (forall l i l', idx = l ++ i :: l' -> forall j, In j l -> (j < i + 64)%nat).
Proof.
  split; [repeat constructor|]. split; [repeat constructor; cbn; intuition discriminate|].
  intros l i l' E j Hj. assert (H : In j [2; 0; 3]%nat) by (rewrite E; apply in_or_app; left; exact Hj). cbn in H. lia.
Qed.
