From Verif Require Import Bytes BytesProofs Parser Crypto Kdf Wire WireProofs WireSeq WireExtra Toy Replay SpecReplay ReplayProofs
  Server ServerSeq SpecServer ServerProofs ServerProps ServerProps2 ServerExamples
  Keys Client ClientSeq SpecClient ClientProofs SpecE2E ClientExamples ServerProps3 Udp SpecUdp UdpProofs.

(** ** The server *)
Lemma wire_one (b : bytes) n : n = lenN b -> wire [(b, n)] = b.
Proof. intros ->. unfold wire. cbn. rewrite app_nil_r. unfold takeN. now rewrite N.leb_refl. Qed.

Lemma enc_response_ne r : enc_response r <> [].
Proof. destruct r; cbn; unfold enc_setup_resp, enc_process_resp, enc_fetch_resp, enc_error_resp, enc_resp_common; cbn; discriminate. Qed.

Lemma udp_one_response C (L : CryptoLaws C) E hostof chunk send n s a id ctr msg rest q :
  let rq := RqProcess id ctr msg true in
  request_ok rq -> n_closed n = false -> n_in n = (a, enc_request rq ++ rest) :: q ->
  exists r ok n' s', udp_exchange C E hostof chunk send n s = (Some (r, ok), (n', s')) /\ n_in n' = q /\
  ((exists rs, r = Some true /\ ((exists c t, rs = RsError c t) \/ exists m, rs = RsProcess ctr m) /\
     ok = send (n_step n) (enc_response rs) /\
     n_out n' = n_out n ++ (if ok then [(Some a, enc_response rs)] else [])) \/
   (r = None /\ n_out n' = n_out n /\ exists i m, e_handler E i true m = HPanic)).
Proof.
  cbv zeta. intros Hok Hc Hi.
  destruct (exchange_flat C E hostof chunk send n s a _ q Hc Hi) as (r & s1 & l & ok & n' & s' & H1 & H2 & H3 & H4 & H5 & H6 & H7 & H8).
  exists r, ok, n', s'. split; [exact H1|]. split; [exact H6|].
  set (E0 := dgram_env E (hostof a)) in *. set (s0 := set_in s (enc_request (RqProcess id ctr msg true) ++ rest)) in *.
  assert (Q : e_quit (shift (s_step s0) E0) (s_step s0) = false) by (cbn [shift e_quit]; rewrite Nat.eqb_refl; reflexivity).
  assert (W : writes_all (shift (s_step s0) E0)) by (intros i b; cbn; split; [lia|reflexivity]).
  pose proof (process_one_response C L (shift (s_step s0) E0) s0 id ctr msg rest Hok eq_refl Q W) as R.
  rewrite one_request_conn, H2 in R. cbn [fst snd] in R.
  destruct R as [(-> & rs & (k & Hs) & K)|(-> & Si & i & m & Hp)].
  - left. exists rs. split; [reflexivity|]. split; [exact K|].
    assert (El : l = [(enc_response rs, k)]).
    { apply (app_inv_head (s_sent s)). change (s_sent s0) with (s_sent s) in Hs. cbn [tick s_sent] in Hs. congruence. }
    subst l. pose proof (Forall_inv H5) as Hl. cbn [fst snd] in Hl. rewrite (wire_one _ _ Hl) in H8.
    destruct H8 as [(Z & _)|(_ & A & B)]; [destruct (enc_response_ne _ Z)|]. auto.
  - right. split; [reflexivity|]. split; [|exists (pred i), m; exact Hp].
    assert (El : l = []).
    { apply (app_inv_head (s_sent s)). change (s_sent s0) with (s_sent s) in Si. unfold silent in Si. cbn [tick s_sent] in Si.
      rewrite app_nil_r. unfold s0 in Si. cbn [set_in s_sent] in Si. congruence. }
    subst l. destruct H8 as [(_ & A & _)|(Z & _)]; [exact A|destruct Z; reflexivity].
Qed.

(** An answer that no datagram can hold is not sent, nor anything in its place. *)
Lemma udp_oversize C (L : CryptoLaws C) E hostof chunk send n s a host id ctr msg q ses hist key pt :
  let rq := RqProcess id ctr msg true in
  request_ok rq -> n_closed n = false -> n_in n = (a, enc_request rq) :: q -> hostof a = Some host ->
  known C s host id = Some ses -> Forall (fun c => c < 2 ^ 64) hist ->
  snd (checks new_window hist) = ses_win ses -> wf s -> ~ refused_after hist ctr ->
  new_gcm C (ses_secret ses) = Some key ->
  gcm_open C key (gcm_nonce dir_c2s ctr) msg = Some pt ->
  (forall i, exists out, e_handler E i true pt = HOk out /\ 65507 < lenN out) ->
  (forall i b, 65507 < lenN b -> send i b = false) ->
  let '(r, (n', s')) := udp_exchange C E hostof chunk send n s in
  r = Some (Some true, false) /\ n_out n' = n_out n /\ exists p, s_calls s' = s_calls s ++ [(p, ctr, true, pt)].
Proof.
  cbv zeta. intros Hok Hc Hi Hh Hk Hhi Hw Wf Hf Hkey Hop Hbig Hsend.
  destruct (exchange_flat C E hostof chunk send n s a _ q Hc Hi) as (r & s1 & l & ok & n' & s' & H1 & H2 & H3 & H4 & H5 & H6 & H7 & H8).
  rewrite H1. set (E0 := dgram_env E (hostof a)) in *. set (s0 := set_in s (enc_request (RqProcess id ctr msg true))) in *.
  assert (Q : e_quit (shift (s_step s0) E0) (s_step s0) = false) by (cbn [shift e_quit]; rewrite Nat.eqb_refl; reflexivity).
  assert (W : writes_all (shift (s_step s0) E0)) by (intros i b; cbn; split; [lia|reflexivity]).
  assert (Hin : s_in s0 = enc_request (RqProcess id ctr msg true) ++ []) by (rewrite app_nil_r; reflexivity).
  assert (Wf0 : wf s0) by (destruct Wf; split; assumption).
  assert (Hh' : e_host (shift (s_step s0) E0) = Some host) by exact Hh.
  pose proof (process_accepted C (shift (s_step s0) E0) s0 host id msg [] ctr true Hok Hin Q Hh' ses hist Hk Hhi Hw Wf0 Hf key Hkey pt Hop) as R.
  rewrite one_request_conn, H2 in R. cbn [fst snd] in R. destruct R as ((p & Hcl) & _ & _ & i & R).
  destruct (Hbig (pred i)) as (out & Eo & Big). change (e_handler (shift (s_step s0) E0) i true pt) with (e_handler E (pred i) true pt) in R.
  rewrite Eo in R. destruct R as (_ & R). destruct (R W) as [(k & Hs) ->].
  set (rs := RsProcess ctr (gcm_seal C key (gcm_nonce dir_s2c ctr) out)) in *.
  assert (El : l = [(enc_response rs, k)]).
  { apply (app_inv_head (s_sent s)). cbn [tick s_sent] in Hs. change (s_sent s0) with (s_sent s) in Hs. congruence. }
  subst l. pose proof (Forall_inv H5) as Hl. cbn [fst snd] in Hl. rewrite (wire_one _ _ Hl) in H8.
  assert (Bg : 65507 < lenN (enc_response rs)).
  { unfold rs. cbn [enc_response]. unfold enc_process_resp, new_process_response. cbn [ps_common ps_counter ps_size ps_msg].
    rewrite !lenN_app, (gcm_seal_len _ L). lia. }
  destruct H8 as [(Z & _)|(_ & A & B)]; [destruct (enc_response_ne _ Z)|]. rewrite (Hsend _ _ Bg) in A. subst ok.
  split; [reflexivity|]. split; [rewrite B; apply app_nil_r|]. exists p.
  cbn [tick s_calls] in Hcl. change (s_calls s0) with (s_calls s) in Hcl. rewrite <- Hcl, <- H3. reflexivity.
Qed.

(** ** The client *)
Lemma udp_client_close send u n : udp_client u -> udp_close send (u, n) = (true, (u, n)).
Proof. intros [_ H]. unfold udp_close. now rewrite H. Qed.

(** Nothing a client does makes Close do more. *)
Lemma udp_readfull_wbuf chunk n u net : udp_client u ->
  udp_client (fst (snd (udp_readfull chunk n (u, net)))) /\ n_closed (snd (snd (udp_readfull chunk n (u, net)))) = n_closed net.
Proof.
  intros Hu. unfold udp_readfull. set (fu := udp_fuel (u, net)). clearbody fu.
  assert (G : udp_client (fst (snd (udp_take chunk fu n (u, net)))) /\
              n_closed (snd (snd (udp_take chunk fu n (u, net)))) = n_closed net).
  2:{ destruct (udp_take chunk fu n (u, net)) as [[g [[]|]] x']; exact G. }
  revert n u net Hu. induction fu as [|f IH]; intros n u net Hu; cbn [udp_take]; [auto|].
  destruct (n =? 0); [auto|]. set (k := N.min n _). clearbody k.
  assert (G : udp_client (fst (snd (udp_read1 k (u, net)))) /\ n_closed (snd (snd (udp_read1 k (u, net)))) = n_closed net).
  { unfold udp_read1, udp_receive. cbn [fst]. destruct (u_read u).
    - destruct (buf_read k (u_rbuf u)); cbn; auto.
    - destruct (n_closed net) eqn:Ec; [cbn; auto|]. destruct (n_in net) as [|[a d] q]; [cbn; auto|].
      cbn [u_rbuf]. destruct (buf_read k d); cbn; auto. }
  destruct (udp_read1 k (u, net)) as [[g [e|]] [u' net']]; cbn [fst snd] in G; [exact G|].
  destruct G as [G1 G2]. specialize (IH (n - lenN g) u' net' G1).
  destruct (udp_take chunk f (n - lenN g) (u', net')) as [[more e] x'']. cbn [fst snd] in *. now rewrite G2 in IH.
Qed.
Lemma udp_copy_wbuf chunk n u net : udp_client u ->
  udp_client (fst (snd (udp_copy chunk n (u, net)))) /\ n_closed (snd (snd (udp_copy chunk n (u, net)))) = n_closed net.
Proof.
  intros Hu. pose proof (udp_readfull_wbuf chunk n u net Hu) as G. unfold udp_copy, udp_readfull in *.
  destruct (udp_take chunk (udp_fuel (u, net)) n (u, net)) as [[g [[]|]] x']; exact G.
Qed.
Lemma ucrun_client C E chunk send A (p : cprog A) : forall u net s, udp_client u ->
  let '(_, ((u', net'), _)) := ucrun C E chunk send p (u, net) s in udp_client u' /\ n_closed net' = n_closed net.
Proof.
  induction p as [a| |R e k IH]; intros u net s Hu; [cbn; auto|cbn; auto|]. cbn [ucrun].
  assert (G : let '(_, ((u1, n1), _)) := ucexec C E chunk send e (u, net) s in udp_client u1 /\ n_closed n1 = n_closed net).
  { destruct e; cbn [ucexec].
    - pose proof (udp_readfull_wbuf chunk n u net Hu) as G. destruct (udp_readfull chunk n (u, net)) as [r [u1 n1]]. exact G.
    - pose proof (udp_copy_wbuf chunk n u net Hu) as G. destruct (udp_copy chunk n (u, net)) as [r [u1 n1]]. exact G.
    - cbn [cexec]. auto.
    - unfold udp_write, net_send. destruct Hu as [H1 H2]. rewrite H1. cbn. unfold udp_client. auto.
    - cbn [cexec]. auto.
    - cbn [cexec]. auto.
    - cbn [cexec]. auto.
    - cbn [cexec]. auto.
    - cbn [cexec]. auto.
    - cbn [cexec]. auto.
    - cbn [cexec]. auto.
    - cbn [cexec]. auto.
    - cbn [cexec]. auto.
    - cbn [cexec]. auto. }
  destruct (ucexec C E chunk send e (u, net) s) as [r [[u1 n1] s1]]. destruct G as [G1 G2].
  specialize (IH r u1 n1 s1 G1). destruct (ucrun C E chunk send (k r) (u1, n1) s1) as [r' [[u2 n2] s2]].
  destruct IH as [I1 I2]. split; [exact I1|congruence].
Qed.

(** A socket of a client is open, and takes datagrams, after Close as before. *)
Lemma udp_close_nothing C E chunk send A (prog : cprog A) s0 net : n_closed net = false ->
  let '(_, ((u, n), s)) := ucrun C E chunk send prog (new_udp false, net) s0 in
  udp_close send (u, n) = (true, (u, n)) /\ n_closed n = false /\
  forall b, send (n_step n) b = true ->
    fst (udp_write send b (snd (udp_close send (u, n)))) = (lenN b, true) /\
    n_out (snd (snd (udp_write send b (snd (udp_close send (u, n)))))) = n_out n ++ [(None, b)].
Proof.
  intros Hc. pose proof (ucrun_client C E chunk send A prog (new_udp false) net s0 (conj eq_refl eq_refl)) as G.
  destruct (ucrun C E chunk send prog (new_udp false, net) s0) as [r [[u n] s]]. destruct G as [G1 G2].
  rewrite udp_client_close by exact G1. split; [reflexivity|]. split; [congruence|]. intros b Hb. cbn [snd].
  unfold udp_write, net_send. destruct G1 as [H1 _]. rewrite H1, G2, Hc, Hb. cbn. auto.
Qed.

(** A Write on a socket that takes it, and what it leaves of an earlier datagram: nothing. *)
Lemma udp_write_run C (L : CryptoLaws C) E chunk send o ses p u net s :
  (forall i, ce_deadline E i = true) -> (forall i b, send i b = true) -> udp_client u -> n_closed net = false ->
  (c_ctr s + 1) mod two64 <> 0 ->
  exists q u' n' s', ucrun C E chunk send (client_write C o ses p) (u, net) s = (Some (WrConn (lenN q) false), ((u', n'), s')) /\
    udp_client u' /\ u_read u' = false /\ n_in n' = n_in net /\ n_closed n' = false /\ n_out n' = n_out net ++ [(None, q)] /\
    c_ctr s' = (c_ctr s + 1) mod two64 /\ c_last s' = (c_ctr s + 1) mod two64 /\ c_buf s' = c_buf s.
Proof.
  intros Hd Hs Hu Hc Hn. destruct (client_gcm_some C L (cs_secret ses)) as (key & K).
  unfold client_write. set (F := fun ok : bool => _).
  assert (D : exists s1, ucrun C E chunk send (cbind (if co_wto o then cdo CDeadline else CRet true) F) (u, net) s =
      ucrun C E chunk send (F true) (u, net) s1 /\ c_ctr s1 = c_ctr s /\ c_buf s1 = c_buf s).
  { destruct (co_wto o).
    - exists (c_tick s). cbn [cbind cdo ucrun ucexec cexec]. rewrite Hd. auto.
    - exists s. auto. }
  destruct D as (s1 & -> & D1 & D2). unfold F. cbn [negb]. rewrite K. cbn [cbind cdo ucrun ucexec cexec]. rewrite D1.
  set (c := (c_ctr s + 1) mod two64) in *. apply N.eqb_neq in Hn. rewrite Hn. cbn [cbind cdo ucrun ucexec cexec].
  set (q := enc_process_req _). unfold udp_write, net_send. destruct Hu as [H1 H2]. rewrite H1, Hc, Hs. cbn [andb negb ucrun fst snd].
  do 4 eexists. split; [reflexivity|]. unfold udp_client. cbn. auto 12.
Qed.

(** Programs that do not write. *)
Fixpoint nowrite {A} (p : cprog A) : Prop :=
  match p with
  | CDo e k => match e with CWrite _ => False | _ => True end /\ forall r, nowrite (k r)
  | _ => True
  end.
Lemma nowrite_bind {A B} (p : cprog A) (f : A -> cprog B) : nowrite p -> (forall a, nowrite (f a)) -> nowrite (cbind p f).
Proof. induction p as [a| |R e k IH]; cbn; auto. intros [H1 H2] Hf. split; [exact H1|]. intros r. apply IH; auto. Qed.
Lemma nowrite_lift {A} (p : parser A) : nowrite (clift p).
Proof. induction p; cbn; auto. Qed.
Lemma nowrite_read C o ses n : nowrite (client_read C o ses n).
Proof.
  unfold client_read. apply nowrite_bind; [destruct (co_rto o); cbn; auto|]. intros [|]; cbn [negb]; [|exact I].
  apply nowrite_bind; [cbn; auto|]. intros buf.
  assert (Rb : forall b, nowrite (read_buffered b n)).
  { intros b. unfold read_buffered. destruct (buffer_read b n) as [[d r]|]; cbn; auto. }
  destruct (0 <? lenN buf); [apply Rb|]. apply nowrite_bind; [apply nowrite_lift|]. intros [e|rc]; [exact I|].
  destruct (negb (rs_success rc)).
  - apply nowrite_bind; [apply nowrite_lift|]. intros [e|er]; exact I.
  - apply nowrite_bind; [apply nowrite_lift|]. intros [e|r]; [exact I|]. apply nowrite_bind; [cbn; auto|]. intros last.
    destruct (negb (ps_counter r =? last)); [exact I|]. destruct (client_gcm C (cs_secret ses)); [|exact I].
    destruct (gcm_open _ _ _ _); [|exact I]. cbn. split; [exact I|]. intros b1. split; [exact I|]. intros _. split; [exact I|]. intros b2. apply Rb.
Qed.

(** The connection holds [i] of a datagram, or will when it is asked; [q] follows. *)
Definition holds (u : udpc) (net : unet) (i : bytes) (q : list (bytes * bytes)) : Prop :=
  (u_read u = true /\ u_rbuf u = i /\ n_in net = q) \/
  (u_read u = false /\ n_closed net = false /\ exists a, n_in net = (a, i) :: q).

Definition rel1 (u : udpc) (net : unet) (u' : udpc) (net' : unet) : Prop :=
  (udp_client u -> udp_client u') /\ n_closed net' = n_closed net /\ n_out net' = n_out net /\ n_step net' = n_step net /\
  (u_read u' = false -> u_read u = false).

Lemma udp_take_first chunk f n u net a i q : u_read u = false -> n_closed net = false -> n_in net = (a, i) :: q -> n <> 0 ->
  udp_take chunk (S f) n (u, net) =
  udp_take chunk (S f) n ({| u_read := true; u_addr := a; u_rbuf := i; u_wbuf := u_wbuf u; u_buffered := u_buffered u |},
     {| n_in := q; n_out := n_out net; n_step := n_step net; n_closed := n_closed net |}).
Proof.
  intros H1 H2 H3 Hn. cbn [udp_take]. apply N.eqb_neq in Hn. rewrite Hn. unfold udp_read1, udp_receive.
  cbn [fst u_read]. rewrite H1, H2, H3. reflexivity.
Qed.
Lemma udp_take_holds chunk n u net i q : holds u net i q ->
  exists u' net', udp_take chunk (udp_fuel (u, net)) n (u, net) =
    ((takeN n i, if n <=? lenN i then None else Some REof), (u', net')) /\ holds u' net' (dropN n i) q /\ rel1 u net u' net' /\
    (u_read u' = false -> dropN n i = i).
Proof.
  intros [(H1 & <- & H3)|(H1 & H2 & a & H3)].
  - rewrite (udp_take_flat chunk _ n u net H1 (udp_fuel_enough u net)).
    do 2 eexists. split; [reflexivity|]. split; [left; auto|]. split; [|cbn; congruence]. repeat split; auto; apply H.
  - destruct (N.eq_dec n 0) as [->|Hn].
    + unfold udp_fuel. cbn [udp_take]. rewrite N.eqb_refl, takeN_0. replace (0 <=? lenN i) with true by (symmetry; apply N.leb_le; lia).
      replace (dropN 0 i) with i by (pose proof (takeN_dropN 0 i) as X; rewrite takeN_0 in X; symmetry; exact X).
      do 2 eexists. split; [reflexivity|]. split; [right; eauto|]. split; [|auto]. repeat split; auto; apply H.
    + unfold udp_fuel. rewrite H3. rewrite (udp_take_first chunk _ n u net a i q H1 H2 H3 Hn).
      rewrite udp_take_flat; [|reflexivity|cbn; lia].
      do 2 eexists. split; [reflexivity|]. split; [left; auto|]. split; [|cbn; discriminate]. repeat split; auto; apply H.
Qed.
Lemma udp_readfull_holds chunk n u net i q : holds u net i q ->
  exists u' net', udp_readfull chunk n (u, net) = (fst (fl_read n i EndEOF), (u', net')) /\
    holds u' net' (snd (fl_read n i EndEOF)) q /\ rel1 u net u' net' /\ (u_read u' = false -> snd (fl_read n i EndEOF) = i).
Proof.
  intros H. destruct (udp_take_holds chunk n u net i q H) as (u' & net' & E & Hh & Hr). unfold udp_readfull. rewrite E. unfold fl_read.
  destruct (N.leb_spec n (lenN i)); cbn [fst snd]; [eauto|]. exists u', net'. split; [reflexivity|].
  unfold dropN in Hh, Hr. replace (lenN i <=? n) with true in Hh, Hr by (symmetry; apply N.leb_le; lia). auto.
Qed.
Lemma udp_copy_holds chunk n u net i q : holds u net i q ->
  exists u' net', udp_copy chunk n (u, net) = (fst (fl_copy n i EndEOF), (u', net')) /\
    holds u' net' (snd (fl_copy n i EndEOF)) q /\ rel1 u net u' net' /\ (u_read u' = false -> snd (fl_copy n i EndEOF) = i).
Proof.
  intros H. destruct (udp_take_holds chunk n u net i q H) as (u' & net' & E & Hh & Hr). unfold udp_copy. rewrite E. unfold fl_copy.
  destruct (N.leb_spec n (lenN i)); cbn [fst snd]; [eauto|]. exists u', net'. split.
  - unfold takeN. replace (lenN i <=? n) with true by (symmetry; apply N.leb_le; lia). reflexivity.
  - unfold dropN in Hh, Hr. replace (lenN i <=? n) with true in Hh, Hr by (symmetry; apply N.leb_le; lia). auto.
Qed.

Definition eof_env (E : cenv) : cenv := {|
  ce_end := EndEOF; ce_write := fun _ b => (lenN b, false); ce_deadline := ce_deadline E;
  ce_fetch := ce_fetch E; ce_rand := ce_rand E; ce_gen := ce_gen E |}.

Lemma rel1_refl u net : rel1 u net u net.
Proof. repeat split; auto; apply H. Qed.
Lemma rel1_trans u n u1 n1 u2 n2 : rel1 u n u1 n1 -> rel1 u1 n1 u2 n2 -> rel1 u n u2 n2.
Proof. intros (A & B & D & F & G) (A' & B' & D' & F' & G'). unfold rel1. repeat split; try congruence; try (apply A', A, H); auto. Qed.

Lemma ucrun_flat C E chunk send A (p : cprog A) : nowrite p -> forall u net s i q, holds u net i q ->
  let '(r1, s1) := crun C (eof_env E) p (c_set_in s i) in
  exists u' net' s', ucrun C E chunk send p (u, net) s = (r1, ((u', net'), s')) /\
    s1 = c_set_in s' (c_in s1) /\ holds u' net' (c_in s1) q /\ rel1 u net u' net' /\ (u_read u' = false -> c_in s1 = i).
Proof.
  induction p as [a| |R e k IH]; intros Hp u net s i q Hh.
  - exists u, net, s. cbn. auto using rel1_refl.
  - exists u, net, s. cbn. auto using rel1_refl.
  - destruct Hp as [Hw Hk].
    assert (G : forall r u1 n1 s1 i1, ucexec C E chunk send e (u, net) s = (r, ((u1, n1), s1)) ->
       cexec C (eof_env E) e (c_set_in s i) = (r, c_set_in s1 i1) -> holds u1 n1 i1 q -> rel1 u net u1 n1 -> (u_read u1 = false -> i1 = i) ->
       let '(r1, s1) := crun C (eof_env E) (CDo e k) (c_set_in s i) in
       exists u' net' s', ucrun C E chunk send (CDo e k) (u, net) s = (r1, ((u', net'), s')) /\
         s1 = c_set_in s' (c_in s1) /\ holds u' net' (c_in s1) q /\ rel1 u net u' net' /\ (u_read u' = false -> c_in s1 = i)).
    { intros r u1 n1 s1 i1 E1 E2 H1 R1 P1. pose proof (IH r (Hk r) u1 n1 s1 i1 q H1) as X.
      cbn [ucrun crun]. rewrite E1, E2. destruct (crun C (eof_env E) (k r) (c_set_in s1 i1)) as [r' s2].
      destruct X as (u' & net' & s' & X1 & X2 & X3 & X4 & X5). exists u', net', s'. split; [exact X1|]. split; [exact X2|]. split; [exact X3|].
      split; [eapply rel1_trans; eassumption|]. intros Z. rewrite (X5 Z). apply P1. apply X4, Z. }
    clear IH. pose proof (rel1_refl u net) as R0.
    destruct e; cbn [ucexec cexec] in G; try contradiction Hw.
    1:{ destruct (udp_readfull_holds chunk n u net i q Hh) as (u' & net' & X & Y & Z & Z'). rewrite X in G.
      cbn [c_in c_set_in eof_env ce_end] in G.
      destruct (fl_read n i EndEOF) as [r i']. eapply G; [reflexivity|reflexivity|exact Y|exact Z|exact Z']. }
    1:{ destruct (udp_copy_holds chunk n u net i q Hh) as (u' & net' & X & Y & Z & Z'). rewrite X in G.
      cbn [c_in c_set_in eof_env ce_end] in G.
      destruct (fl_copy n i EndEOF) as [r i']. eapply G; [reflexivity|reflexivity|exact Y|exact Z|exact Z']. }
    all: eapply G; [reflexivity|reflexivity|exact Hh|exact R0|reflexivity].
Qed.

Lemma eof_works E : (forall i, ce_deadline E i = true) -> c_works (eof_env E).
Proof. intros H. split; [intros i b; cbn; split; [lia|reflexivity]|exact H]. Qed.

(** What an earlier datagram left unread is gone after a Write: the next Read looks
    at the next datagram. *)
Lemma udp_garbage C (L : CryptoLaws C) E chunk send o ses p u net s a oc key m n :
  (forall i, ce_deadline E i = true) -> (forall i b, send i b = true) -> udp_client u -> n_closed net = false ->
  n_in net = [] -> c_buf s = [] -> c_ctr s + 1 < two64 -> client_gcm C (cs_secret ses) = Some key -> m <> [] ->
  let c := c_ctr s + 1 in
  process_response_octets oc c (gcm_seal C key (gcm_nonce dir_s2c c) m) ->
  let '(w, ((u1, n1), s1)) := ucrun C E chunk send (client_write C o ses p) (u, net) s in
  let '(r, _) := ucrun C E chunk send (client_read C o ses n) (u1, arrive a oc n1) s1 in
  r = Some (RdOk (takeN n m) (lenN m <=? n)).
Proof.
  intros Hd Hs Hu Hc Hi Hb Hlt K Hm c Ho.
  assert (Ec : (c_ctr s + 1) mod two64 = c) by (apply N.mod_small; exact Hlt).
  destruct (udp_write_run C L E chunk send o ses p u net s Hd Hs Hu Hc ltac:(rewrite Ec; unfold c; lia))
    as (q & u1 & n1 & s1 & -> & U1 & U2 & U3 & U4 & _ & U5 & U6 & U7). rewrite Ec in U6.
  assert (Hh : holds u1 (arrive a oc n1) oc []) by (right; cbn; split; [exact U2|]; split; [exact U4|]; exists a; rewrite U3, Hi; reflexivity).
  pose proof (ucrun_flat C E chunk send _ _ (nowrite_read C o ses n) u1 (arrive a oc n1) s1 oc [] Hh) as F.
  destruct (read_fresh_run C (eof_env E) o ses n (c_set_in s1 oc) oc [] c (gcm_seal C key (gcm_nonce dir_s2c c) m) key (eof_works E Hd)) as (r' & s3 & R & _ & _ & B).
  - cbn. congruence.
  - cbn. now rewrite app_nil_r.
  - exact Ho.
  - exact K.
  - rewrite R in F. destruct F as (u2 & n2 & s2 & -> & _). cbn [c_set_in c_last] in B. rewrite U6, N.eqb_refl, (gcm_open_seal _ L) in B.
    destruct m; [congruence|]. destruct B as [-> _]. reflexivity.
Qed.

(** One datagram too many, and no Read succeeds any more. *)
Lemma udp_late C (L : CryptoLaws C) E chunk send o ses n a f ct :
  (forall i, ce_deadline E i = true) -> (forall i b, send i b = true) ->
  (forall c, c < two64 -> process_response_octets (f c) c (ct c)) ->
  forall ps u net s, udp_client u -> n_closed net = false -> c_buf s = [] -> n_in net = [(a, f (c_last s))] -> c_ctr s = c_last s ->
  c_last s + lenN ps < two64 ->
  udp_exchanges C E chunk send o ses n a f ps (u, net) s = map (fun _ => Some (RdErr RdCounter)) ps.
Proof.
  intros Hd Hs Hf. destruct (client_gcm_some C L (cs_secret ses)) as (key & K).
  induction ps as [|p ps IH]; intros u net s Hu Hc Hb Hin He Hlt; [reflexivity|]. cbn [udp_exchanges map]. rewrite lenN_cons in Hlt.
  assert (Ec : (c_ctr s + 1) mod two64 = c_ctr s + 1) by (apply N.mod_small; lia).
  destruct (udp_write_run C L E chunk send o ses p u net s Hd Hs Hu Hc ltac:(rewrite Ec; lia))
    as (q & u1 & n1 & s1 & -> & U1 & U2 & U3 & U4 & _ & U5 & U6 & U7). rewrite Ec in U5, U6.
  set (net1 := arrive a (f (c_last s1)) n1).
  assert (Hh : holds u1 net1 (f (c_last s)) [(a, f (c_last s1))]) by (right; cbn; split; [exact U2|]; split; [exact U4|]; exists a; rewrite U3, Hin; reflexivity).
  pose proof (ucrun_flat C E chunk send _ _ (nowrite_read C o ses n) u1 net1 s1 _ _ Hh) as F.
  destruct (read_fresh_run C (eof_env E) o ses n (c_set_in s1 (f (c_last s))) (f (c_last s)) [] (c_last s) (ct (c_last s)) key (eof_works E Hd))
    as (r' & s3 & R & I3 & (_ & C3 & L3 & _) & B).
  - cbn. congruence.
  - cbn. now rewrite app_nil_r.
  - apply Hf. lia.
  - exact K.
  - rewrite R in F. destruct F as (u2 & n2 & s2 & -> & F & Hh2 & (R1 & R2 & _) & P). rewrite I3 in Hh2, P.
    cbn [c_set_in c_last c_ctr] in B, L3, C3. destruct (N.eqb_spec (c_last s) (c_last s1)); [lia|]. destruct B as [-> B3].
    rewrite F in L3, C3, B3. cbn [c_set_in c_last c_ctr c_buf] in L3, C3, B3. f_equal.
    apply IH.
    + apply R1, U1.
    + rewrite R2. exact U4.
    + exact B3.
    + destruct Hh2 as [(_ & _ & X)|(X1 & _)]; [rewrite X, L3; reflexivity|].
      specialize (P X1). destruct (Hf (c_last s) ltac:(lia)) as (b0 & Z & _). rewrite Z in P. discriminate P.
    + congruence.
    + rewrite L3. lia.
Qed.

(** ** For examples *)
Definition ex_net (q : list (bytes * bytes)) : unet := {| n_in := q; n_out := []; n_step := 0; n_closed := false |}.
Definition ex_hostof (a : bytes) : option bytes := Some ex_host.
