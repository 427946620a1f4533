(** Repeating a request over UDP until it is answered. *)
From Verif Require Import Bytes Parser Crypto Toy Wire Replay SpecReplay Server ServerSeq SpecServer MultiConn SpecMulti ServerExamples Keys Client
  ClientSeq SpecE2E ClientExamples ClientProps LongExamples Udp SpecUdp UdpThms SpecUdpLoss SpecInsist InsistProofs.

(** C179. Wanted: an application that repeats a request until Read succeeds has
    it handled once. It is not so. Every attempt is a request of its own, with a
    counter of its own, and nothing ties it to the last: whatever was lost before
    the first attempt that got through, the message is handled once for that
    attempt and once more for every reply that was lost. *)
Theorem C179_repeat_handled_once_refuted : forall C CE SE hostof chunk send me srv o ses n chost f p lost rest hist cs u net sn ss, CryptoLaws C ->
  (forall i, ce_deadline CE i = true) -> (forall i b, lenN b <= 65507 -> send i b = true) -> hostof me = Some chost -> co_reply o = true ->
  paired C ses chost hist cs ss -> Forall (fun c => c <= c_ctr cs) hist ->
  udp_client u -> n_closed net = false -> n_in net = [] -> n_closed sn = false -> n_in sn = [] ->
  c_ctr cs + lenN (lost ++ Arrives :: rest) < 2 ^ 64 ->
  lenN p + 50 <= 65507 -> (forall i, e_handler SE i true p = HOk (f p)) -> f p <> [] /\ lenN (f p) + 33 <= 65507 /\ lenN (f p) <= n ->
  ~ In Arrives lost ->
  let '(r, (_, (_, ss'))) := insist C CE SE hostof chunk send me srv o ses n p (lost ++ Arrives :: rest) (u, net) cs sn ss in
  r = (Some (f p), S (length lost)) /\ handled_times p (S (count_fate ReplyLost lost)) ss ss'.
Proof. exact insist_many. Qed.
Print Assumptions C179_repeat_handled_once_refuted.
(** Two replies and a request are lost: four attempts, the message handled three
    times. *)
Example C179_example :
  let f m := m ++ [x21] in
  paired toy ex_ses ex_host [] (cst0 []) ex_ss /\ (forall i p, e_handler ex_SE i true p = HOk (f p)) /\
  let '(r, (_, (_, s'))) := insist toy ex_CE ex_SE ex_hostof (fun _ => 3) (fun _ b => lenN b <=? 65507) [x01] [x02] ex_opts ex_ses 100 [x41]
    [ReplyLost; RequestLost; ReplyLost; Arrives; Arrives] (new_udp false, ex_net []) (cst0 []) (ex_net []) ex_ss in
  r = (Some [x41; x21], 4%nat) /\ seen (s_calls s') = [(1, true, [x41]); (3, true, [x41]); (4, true, [x41])].
Proof. split; [exact (proj1 long_reply_example)|]. split; [reflexivity|]. vm_compute. split; reflexivity. Qed.

(** What holds: the application has the reply if, and only if, some attempt got
    through both ways; the message was then handled at least once, never more
    often than it was sent, and at most once if no reply was lost. *)
Theorem C179_repeat_at_least_once_partial : forall C CE SE hostof chunk send me srv o ses n chost f p fs hist cs u net sn ss, CryptoLaws C ->
  (forall i, ce_deadline CE i = true) -> (forall i b, lenN b <= 65507 -> send i b = true) -> hostof me = Some chost -> co_reply o = true ->
  paired C ses chost hist cs ss -> Forall (fun c => c <= c_ctr cs) hist ->
  udp_client u -> n_closed net = false -> n_in net = [] -> n_closed sn = false -> n_in sn = [] ->
  c_ctr cs + lenN fs < 2 ^ 64 ->
  lenN p + 50 <= 65507 -> (forall i, e_handler SE i true p = HOk (f p)) -> f p <> [] /\ lenN (f p) + 33 <= 65507 /\ lenN (f p) <= n ->
  let '((a, k), (_, (_, ss'))) := insist C CE SE hostof chunk send me srv o ses n p fs (u, net) cs sn ss in
  (k <= length fs)%nat /\ (a = Some (f p) <-> In Arrives fs) /\ (a = None <-> ~ In Arrives fs) /\
  exists j, handled_times p j ss ss' /\ (j <= k)%nat /\ (a <> None -> (1 <= j)%nat) /\ (~ In ReplyLost fs -> (j <= 1)%nat).
Proof. exact insist_safe. Qed.
Print Assumptions C179_repeat_at_least_once_partial.
Example C179_partial_example :
  let f m := m ++ [x21] in
  let go fs := insist toy ex_CE ex_SE ex_hostof (fun _ => 3) (fun _ b => lenN b <=? 65507) [x01] [x02] ex_opts ex_ses 100 [x41; x42]
    fs (new_udp false, ex_net []) (cst0 []) (ex_net []) ex_ss in
  paired toy ex_ses ex_host [] (cst0 []) ex_ss /\
  fst (go [RequestLost; RequestLost; Arrives]) = (Some [x41; x42; x21], 3%nat) /\
  seen (s_calls (snd (snd (snd (go [RequestLost; RequestLost; Arrives]))))) = [(3, true, [x41; x42])] /\
  fst (go [RequestLost; ReplyLost]) = (None, 2%nat).
Proof. split; [exact (proj1 long_reply_example)|]. vm_compute. auto. Qed.
