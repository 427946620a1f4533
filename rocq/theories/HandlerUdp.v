(** Lemmas for C184: handlers as programs, over UDP. *)
From Verif Require Import Bytes BytesProofs Parser Crypto Kdf Wire WireSeq Replay SpecReplay Server ServerSeq SpecServer ServerProps ServerProps2 MultiConn SpecMulti
  Keys Client ClientSeq SpecClient SpecE2E E2EProofs Udp SpecUdp UdpThms SpecUdpLoss UdpLoss Handler SpecHandler HandlerProofs.

Lemma handler_udp_talk C CE SE hostof chunk send me srv o ses n chost h (f : bytes -> bytes) rs hist cs u net sn ss : CryptoLaws C ->
  (forall i, ce_deadline CE i = true) -> (forall i b, lenN b <= 65507 -> send i b = true) ->
  hostof me = Some chost -> co_reply o = true ->
  (forall i m, exists t, runs h true m (e_handler SE i true m) t) -> (forall m, exists t, runs h true m (HOk (f m)) t) ->
  paired C ses chost hist cs ss -> Forall (fun c => c <= c_ctr cs) hist ->
  udp_client u -> n_closed net = false -> n_in net = [] -> n_closed sn = false -> n_in sn = [] ->
  c_ctr cs + lenN rs < two64 ->
  Forall (fun q => let p := fst (fst q) in lenN p + 50 <= 65507 /\ f p <> [] /\ lenN (f p) + 33 <= 65507 /\ lenN (f p) <= n) rs ->
  let '(res, (_, (_, ss'))) := lossy C CE SE hostof chunk send me srv o ses n rs (u, net) cs sn ss in
  Forall2 (round_good f) rs res /\ seen (s_calls ss') = seen (s_calls ss) ++ heard (c_ctr cs + 1) rs.
Proof.
  intros L WC Hs Hh Ho Hr Hf P Hle Hu H1 H2 H3 H4 Hc Hq.
  apply (udp_lossy C CE SE hostof chunk send me srv o ses n chost f rs hist cs u net sn ss); auto.
  eapply Forall_impl; [|exact Hq]. cbv zeta. intros q (A1 & A2). split; [exact A1|]. split; [|exact A2].
  intro i. destruct (Hr i (fst (fst q))) as (t & T). destruct (Hf (fst (fst q))) as (t' & T').
  destruct (runs_fun _ _ _ _ _ _ _ T T') as [-> _]. reflexivity.
Qed.
