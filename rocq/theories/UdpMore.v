(** No number of Reads brings a UDP client back in step. *)
From Verif Require Import Bytes BytesProofs Parser ParserProofs Crypto Wire WireProofs WireSeq Server Keys Client ClientSeq SpecClient ClientProofs ClientProps
  Udp SpecUdp UdpProofs UdpThms.

Lemma read_nothing C E o ses n s : (forall i, ce_deadline E i = true) -> c_buf s = [] -> c_in s = [] ->
  exists e s', crun C (eof_env E) (client_read C o ses n) s = (Some (RdErr e), s') /\ c_in s' = [] /\ c_buf s' = [] /\ c_last s' = c_last s /\ c_ctr s' = c_ctr s.
Proof.
  intros Hd Hb Hi. change (client_read C o ses n) with
    (cbind (if co_rto o then cdo CDeadline else CRet true) (read_after_deadline C ses n)).
  destruct (deadline_ok C (eof_env E) (eof_works E Hd) (co_rto o) (read_after_deadline C ses n) s) as (s1 & -> & H1 & H2 & H3 & H4 & H5 & H6).
  unfold read_after_deadline. cbn [negb]. rewrite crun_do. cbn [cexec fst snd]. rewrite H5, Hb.
  change (0 <? lenN []) with false. cbv iota. rewrite crun_bind, crun_lift, H1, Hi. cbn.
  eexists _, _. split; [reflexivity|]. cbn. repeat split; congruence.
Qed.
Lemma udp_reads_nothing C E chunk send o ses n q : (forall i, ce_deadline E i = true) ->
  forall k u net s, udp_client u -> n_closed net = false -> u_read u = true -> u_rbuf u = [] -> n_in net = q -> c_buf s = [] ->
  let '(rs, ((u', net'), s')) := udp_reads C E chunk send o ses n k (u, net) s in
  Forall (fun r => exists e, r = Some (RdErr e)) rs /\ udp_client u' /\ n_closed net' = false /\ n_in net' = q /\
  c_buf s' = [] /\ c_last s' = c_last s /\ c_ctr s' = c_ctr s.
Proof.
  intros Hd. induction k as [|k IH]; intros u net s Hu Hc Hr Hb Hq Hs; cbn [udp_reads]; [auto 8|].
  assert (Hh : holds u net [] q) by (left; auto).
  pose proof (ucrun_flat C E chunk send _ _ (nowrite_read C o ses n) u net s [] q Hh) as F.
  destruct (read_nothing C E o ses n (c_set_in s []) Hd Hs eq_refl) as (e & s3 & R & R1 & R2 & R3 & R4). rewrite R in F.
  destruct F as (u2 & n2 & s2 & -> & F & Hh2 & (P1 & P2 & _ & _ & P5) & _). rewrite R1 in Hh2. rewrite F in R2, R3, R4. cbn in R2, R3, R4.
  destruct Hh2 as [(A & B & D)|(A & _)]; [|rewrite (P5 A) in Hr; discriminate Hr].
  specialize (IH u2 n2 s2 (P1 Hu) ltac:(congruence) A B D R2).
  destruct (udp_reads C E chunk send o ses n k (u2, n2) s2) as [rs [[u' net'] s']]. destruct IH as (I1 & I2 & I3 & I4 & I5 & I6 & I7).
  split; [constructor; eauto|]. split; [exact I2|]. split; [exact I3|]. split; [exact I4|]. split; [exact I5|]. split; congruence.
Qed.
Lemma udp_late_forever C (L : CryptoLaws C) E chunk send o ses n a f ct :
  (forall i, ce_deadline E i = true) -> (forall i b, send i b = true) ->
  (forall c, c < two64 -> process_response_octets (f c) c (ct c)) ->
  forall ps u net s, udp_client u -> n_closed net = false -> c_buf s = [] -> n_in net = [(a, f (c_last s))] -> c_ctr s = c_last s ->
  c_last s + lenN ps < two64 ->
  Forall (Forall (fun r => exists e, r = Some (RdErr e))) (udp_rounds C E chunk send o ses n a f ps (u, net) s).
Proof.
  intros Hd Hs Hf. destruct (client_gcm_some C L (cs_secret ses)) as (key & K).
  induction ps as [|[p k] ps IH]; intros u net s Hu Hc Hb Hin He Hlt; [constructor|]. cbn [udp_rounds udp_reads]. rewrite lenN_cons in Hlt.
  assert (Ec : (c_ctr s + 1) mod two64 = c_ctr s + 1) by (apply N.mod_small; lia).
  destruct (udp_write_run C L E chunk send o ses p u net s Hd Hs Hu Hc ltac:(rewrite Ec; lia))
    as (q & u1 & n1 & s1 & -> & U1 & U2 & U3 & U4 & _ & U5 & U6 & U7). rewrite Ec in U5, U6.
  set (net1 := arrive a (f (c_last s1)) n1).
  assert (Hh : holds u1 net1 (f (c_last s)) [(a, f (c_last s1))]) by (right; cbn; split; [exact U2|]; split; [exact U4|]; exists a; rewrite U3, Hin; reflexivity).
  pose proof (ucrun_flat C E chunk send _ _ (nowrite_read C o ses n) u1 net1 s1 _ _ Hh) as F.
  destruct (read_fresh_run C (eof_env E) o ses n (c_set_in s1 (f (c_last s))) (f (c_last s)) [] (c_last s) (ct (c_last s)) key (eof_works E Hd))
    as (r' & s3 & R & I3 & (_ & C3 & L3 & _) & B).
  - cbn. congruence.
  - cbn. now rewrite app_nil_r.
  - apply Hf. lia.
  - exact K.
  - rewrite R in F. destruct F as (u2 & n2 & s2 & -> & F & Hh2 & (R1 & R2 & _) & P). rewrite I3 in Hh2, P.
    cbn [c_set_in c_last c_ctr] in B, L3, C3. destruct (N.eqb_spec (c_last s) (c_last s1)); [lia|]. destruct B as [-> B3].
    rewrite F in L3, C3, B3. cbn [c_set_in c_last c_ctr c_buf] in L3, C3, B3.
    destruct Hh2 as [(X1 & X2 & X3)|(X1 & _)].
    2:{ specialize (P X1). destruct (Hf (c_last s) ltac:(lia)) as (b0 & Z & _). rewrite Z in P. discriminate P. }
    pose proof (udp_reads_nothing C E chunk send o ses n [(a, f (c_last s1))] Hd k u2 n2 s2 (R1 U1) ltac:(rewrite R2; exact U4) X1 X2 X3 B3) as G.
    destruct (udp_reads C E chunk send o ses n k (u2, n2) s2) as [rs [[u' net'] s']]. destruct G as (G1 & G2 & G3 & G4 & G5 & G6 & G7).
    constructor; [constructor; eauto|]. apply IH; auto; try congruence. rewrite G6, L3. lia.
Qed.
