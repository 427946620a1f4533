(** Datagrams of others make no difference to the client's. *)
From Verif Require Import Bytes BytesProofs Parser ParserProofs Crypto Kdf Wire WireProofs WireSeq Replay SpecReplay
  Server ServerSeq SpecServer ServerProofs MultiConn SpecMulti MultiProofs Keys
  Client ClientSeq SpecClient ClientProofs SpecE2E E2EProofs System SpecSystem Kahn Duo DuoRun DuoTalk SystemSim
  Udp SpecUdp UdpProofs UdpThms UdpSystem SpecUdpSystem UdpDuo UdpTalk.

Lemma udp_take_out chunk : forall fu n x, n_out (snd (snd (udp_take chunk fu n x))) = n_out (snd x).
Proof.
  induction fu as [|f IH]; intros n [u net]; cbn [udp_take]; [reflexivity|].
  destruct (n =? 0); [reflexivity|]. set (k := N.min n _). clearbody k.
  assert (G : n_out (snd (snd (udp_read1 k (u, net)))) = n_out net).
  { unfold udp_read1, udp_receive. cbn [fst]. destruct (u_read u).
    - destruct (buf_read k (u_rbuf u)); reflexivity.
    - destruct (n_closed net); [reflexivity|]. destruct (n_in net) as [|[a d] q]; [reflexivity|].
      cbn [u_rbuf]. destruct (buf_read k d); reflexivity. }
  destruct (udp_read1 k (u, net)) as [[g [e|]] x']; cbn [fst snd] in G |- *; [exact G|].
  specialize (IH (n - lenN g) x'). destruct (udp_take chunk f (n - lenN g) x') as [[more e] x'']. cbn [snd] in *. congruence.
Qed.
Lemma reads_out C CE chunk {R} (e : ceff R) cx s : is_write e = false ->
  left_socket cx (fst (snd (ucexec C CE chunk (fun _ => fits) e cx s))) = [].
Proof.
  intros H. assert (X : n_out (snd (fst (snd (ucexec C CE chunk (fun _ => fits) e cx s)))) = n_out (snd cx)).
  { destruct e; try discriminate H; cbn [ucexec]; try (destruct (cexec _ _ _ _); reflexivity).
    - unfold udp_readfull. pose proof (udp_take_out chunk (udp_fuel cx) n cx) as G.
      destruct (udp_take _ _ _ _) as [[g [[|]|]] x']; exact G.
    - unfold udp_copy. pose proof (udp_take_out chunk (udp_fuel cx) n cx) as G.
      destruct (udp_take _ _ _ _) as [[g [[|]|]] x']; exact G. }
  unfold left_socket. rewrite X, skipn_all. reflexivity.
Qed.

Lemma some_inj {B} (a b : B) : Some a = Some b -> a = b.
Proof. congruence. Qed.
Lemma even_double k : Nat.even (2 * k) = true.
Proof. apply Nat.even_spec. exists k. reflexivity. Qed.
Lemma odd_double k : Nat.even (2 * k + 1) = false.
Proof. rewrite Nat.add_1_r, Nat.even_succ. rewrite <- Nat.negb_even, even_double. reflexivity. Qed.
Lemma even_half j : Nat.even j = true -> exists k, j = (2 * k)%nat.
Proof. intros H. apply Nat.even_spec in H. exact H. Qed.
Lemma odd_half j : Nat.even j = false -> exists k, j = (2 * k + 1)%nat.
Proof. intros H. apply Nat.odd_spec. rewrite <- Nat.negb_even, H. reflexivity. Qed.
Lemma div2_odd_double k : Nat.div2 (2 * k + 1) = k.
Proof. rewrite Nat.add_1_r. apply Nat.div2_succ_double. Qed.

Section Sim.
Variables (C : Crypto) (CE : cenv) (E : nat -> senv) (hostof : bytes -> option bytes) (chunk : nat -> N) (me srv key : bytes) (A : Type).
Let K (k : bytes) : bool := bytes_eqb k key.
Let SE (k : nat) : senv := dgram_env (E (2 * k)) (hostof me).
Notation move := (usys_move C CE E hostof chunk me srv).
Notation go_c := (ugo_c C CE chunk A).
Notation go_s := (ugo_s C SE srv A).
Definition own_q (x : usys A) : list (bytes * bytes) := filter (fun p => bytes_eqb (fst p) me) (v_q x).

Definition steady (y : uduo A) : Prop :=
  match w_mode y with
  | UIdle _ => True
  | _ => waits C CE (w_cl y) (w_cs y) = true /\ u_read (fst (w_cx y)) = false /\ n_in (snd (w_cx y)) = []
  end.

Definition at_mode (x : usys A) (f : prel) (N : nat -> Prop) (k : nat) (mo : umode) : Prop :=
  match mo with
  | UIdle m => rel K f N (t_mem (v_srv x)) m /\ v_mine x = k /\ own_q x = []
  | UQueued m d => rel K f N (t_mem (v_srv x)) m /\ v_mine x = k /\ own_q x = [(me, d)]
  | UBusy m c => rel K f N (t_mem (v_srv x)) m /\ v_mine x = S k /\ own_q x = [] /\ v_done x (2 * k) = false /\
                 crel any (hostof me) f (t_conn (v_srv x) (2 * k)) c
  end.

Record simu (x : usys A) (y : uduo A) (f : prel) (N : nat -> Prop) : Prop := {
  su_cl : v_cl x = w_cl y;
  su_cx : v_cx x = w_cx y;
  su_cs : v_cs x = w_cs y;
  su_even : forall i, (i < v_mine x)%nat -> v_from x (2 * i) = me;
  su_odd : forall i, (i < v_others x)%nat -> v_from x (2 * i + 1) <> me;
  su_others : forall i, (i < v_others x)%nat -> nrel any (hostof (v_from x (2 * i + 1))) N (t_conn (v_srv x) (2 * i + 1));
  su_done : forall i, (i < w_k y)%nat -> v_done x (2 * i) = true;
  su_calls : flat_map (fun k => seen (c_calls (t_conn (v_srv x) (2 * k)))) (seq 0 (w_k y)) = w_calls y;
  su_mode : at_mode x f N (w_k y) (w_mode y);
  su_steady : steady y }.

Notation path := (path (uduo A) (option bytes) go_c go_s (uuses A)).

Lemma filter_none (q : list (bytes * bytes)) a d : a <> me -> filter (fun p => bytes_eqb (fst p) me) (q ++ [(a, d)]) = filter (fun p => bytes_eqb (fst p) me) q.
Proof.
  intros H. rewrite filter_app. cbn [filter fst]. destruct (bytes_eqb_spec a me); [contradiction|]. apply app_nil_r.
Qed.

(** The client. *)
Lemma sim_uclient x y f N m t z : simu x y f N -> path y m t z -> ends _ go_c go_s z -> (forall R e k, w_cl z <> @CDo A R e k) ->
  match move x UClient with
  | Some x' => exists y', go_c y = Some y' /\ simu x' y' f N
  | None => go_c y = None
  end.
Proof.
  intros [S1 S2 S3 S4 S5 S6 S7 S8 S9 S10] HP Hz Hcl. unfold usys_move, ugo_c. rewrite S1, S2, S3.
  destruct (w_cl y) as [a| |R e kk] eqn:Ecl; try reflexivity.
  destruct (local e) eqn:Hl.
  { assert (Hw : is_write e = false /\ is_read e = false).
    { unfold local in Hl. destruct (is_read e), (is_write e); try discriminate Hl; auto. }
    destruct Hw as [Hw Hrd]. assert (u_ready e (w_cx y) = true) as -> by (destruct e; try discriminate Hrd; reflexivity).
    pose proof (reads_out C CE chunk e (w_cx y) (w_cs y) Hw) as O.
    rewrite (ucexec_local C CE chunk e (w_cx y) (w_cs y) Hl) in *. cbn [fst snd] in O.
    eexists. split; [reflexivity|]. rewrite O. cbn [map]. rewrite app_nil_r.
    constructor; cbn [v_cl v_cx v_cs v_q v_srv v_from v_done v_mine v_others w_cl w_cx w_cs w_mode w_k w_calls]; auto.
    unfold steady in *. cbn [w_mode w_cl w_cs w_cx]. rewrite Ecl in S10.
    cbn [waits] in S10. rewrite Hw, Hrd in S10. exact S10. }
  assert (Hrw : is_read e = negb (is_write e)) by (destruct e; try discriminate Hl; reflexivity).
  destruct (w_mode y) as [m0|m0 d0|m0 c0] eqn:Emo.
  - (* nothing under way *)
    destruct (is_write e) eqn:Hw.
    + assert (u_ready e (w_cx y) = true) as -> by (destruct e; try discriminate Hw; reflexivity).
      destruct (ucexec C CE chunk (fun _ => fits) e (w_cx y) (w_cs y)) as [r [cx s]] eqn:Ee.
      assert (Hstop : go_c y = None -> False).
      { intros Hn. assert (Hs : go_s y = None) by (unfold ugo_s; rewrite Emo; reflexivity).
        inversion HP as [|? y1 ? m1 t1 Hl1 Hp1|? y1 ? m1 t1 Hr1 Hp1]; subst; [|congruence|congruence].
        apply (Hcl _ _ _ Ecl). }
      unfold ugo_c in Hstop. rewrite Ecl, Hl, Emo, Ee, Hw in Hstop.
      destruct (left_socket (w_cx y) cx) as [|d [|]]; try (destruct (Hstop eq_refl)).
      destruct (waits C CE (kk r) s && negb (u_read (fst cx)) && match n_in (snd cx) with [] => true | _ => false end) eqn:Ew;
        [|destruct (Hstop eq_refl)].
      eexists. split; [reflexivity|].
      apply andb_prop in Ew. destruct Ew as [Ew Ew3]. apply andb_prop in Ew. destruct Ew as [Ew1 Ew2].
      constructor; cbn [v_cl v_cx v_cs v_q v_srv v_from v_done v_mine v_others w_cl w_cx w_cs w_mode w_k w_calls]; auto.
      * cbn [at_mode] in S9 |- *. destruct S9 as (Q1 & Q2 & Q3). cbn [v_srv v_mine]. split; [exact Q1|]. split; [exact Q2|].
        unfold own_q in *. cbn [v_q map]. rewrite filter_app, Q3. cbn [filter fst]. rewrite bytes_eqb_refl. reflexivity.
      * unfold steady. cbn [w_mode w_cl w_cs w_cx]. split; [exact Ew1|]. split.
        -- destruct (u_read (fst cx)); [discriminate|reflexivity].
        -- destruct (n_in (snd cx)); [reflexivity|discriminate].
    + destruct (u_ready e (w_cx y)) eqn:Er.
      2:{ destruct (ucexec C CE chunk (fun _ => fits) e (w_cx y) (w_cs y)) as [r [cx s]]. reflexivity. }
      pose proof (reads_out C CE chunk e (w_cx y) (w_cs y) Hw) as O.
      destruct (ucexec C CE chunk (fun _ => fits) e (w_cx y) (w_cs y)) as [r [cx s]]. cbn [fst snd] in O.
      eexists. split; [reflexivity|]. rewrite O. cbn [map]. rewrite app_nil_r.
      constructor; cbn [v_cl v_cx v_cs v_q v_srv v_from v_done v_mine v_others w_cl w_cx w_cs w_mode w_k w_calls]; auto.
      exact I.
  - unfold steady in S10. rewrite Emo, Ecl in S10. destruct S10 as (J1 & J2 & J3). cbn [waits] in J1. rewrite Hrw in J1.
    assert (u_ready e (w_cx y) = false) as ->; [|reflexivity].
    destruct e; try discriminate Hl; cbn [is_write negb positive] in J1; try discriminate J1; cbn [u_ready]; rewrite J2, J3;
      destruct (n =? 0); try discriminate J1; reflexivity.
  - unfold steady in S10. rewrite Emo, Ecl in S10. destruct S10 as (J1 & J2 & J3). cbn [waits] in J1. rewrite Hrw in J1.
    assert (u_ready e (w_cx y) = false) as ->; [|reflexivity].
    destruct e; try discriminate Hl; cbn [is_write negb positive] in J1; try discriminate J1; cbn [u_ready]; rewrite J2, J3;
      destruct (n =? 0); try discriminate J1; reflexivity.
Qed.

(** The server on the client's behalf. *)
Definition good (l : option bytes) : Prop := forall k, l = Some k -> k = key.

Lemma good_head y m t z : path y m t z -> ends _ go_c go_s z -> Forall good t -> forall k, uuses A y = Some k -> K k = true.
Proof.
  intros HP Hz G k Hk.
  assert (exists y1, go_s y = Some y1) as [y1 Ey].
  { unfold uuses in Hk. unfold ugo_s. destruct (w_mode y) as [| |m0 c0]; try discriminate. destruct (c_prog c0); eauto. }
  destruct (one_r _ _ _ _ _ (udiamond C CE SE chunk srv A) _ _ _ _ HP Hz _ Ey) as (m1 & t1 & -> & -> & P1).
  inversion G as [|? ? G1 G2]; subst. rewrite (G1 k Hk). apply bytes_eqb_refl.
Qed.

Lemma runs_even x k : runs x (2 * k) = true -> (k < v_mine x)%nat /\ @v_done A x (2 * k) = false.
Proof.
  unfold runs. rewrite even_double, Nat.div2_double. intros H. apply andb_prop in H. destruct H as [H1 H2].
  apply Nat.ltb_lt in H1. split; [exact H1|]. destruct (v_done x (2 * k)); [discriminate|reflexivity].
Qed.
Lemma runs_odd x k : runs x (2 * k + 1) = true -> (k < v_others x)%nat /\ @v_done A x (2 * k + 1) = false.
Proof.
  unfold runs. rewrite odd_double, div2_odd_double. intros H. apply andb_prop in H. destruct H as [H1 H2].
  apply Nat.ltb_lt in H1. split; [exact H1|]. destruct (v_done x (2 * k + 1)); [discriminate|reflexivity].
Qed.

(** Only the latest datagram of the client has a goroutine. *)
Lemma runs_latest x y f N k : simu x y f N -> runs x (2 * k) = true ->
  k = w_k y /\ exists m c, w_mode y = UBusy m c.
Proof.
  intros S H. apply runs_even in H. destruct H as [H1 H2]. destruct S as [S1 S2 S3 S4 S5 S6 S7 S8 S9 S10].
  assert (Hk : ~ (k < w_k y)%nat) by (intros Hlt; rewrite (S7 k Hlt) in H2; discriminate).
  destruct (w_mode y) as [m|m d|m c]; cbn [at_mode] in S9.
  - destruct S9 as (_ & Q & _). lia.
  - destruct S9 as (_ & Q & _). lia.
  - destruct S9 as (_ & Q & _). split; [lia|eauto].
Qed.

Ltac flds := cbn [v_cl v_cx v_cs v_q v_srv v_from v_done v_mine v_others w_cl w_cx w_cs w_mode w_k w_calls with_srv t_mem t_conn set_conn].

Lemma seq_calls (g h : nat -> list (N * bool * bytes)) n : (forall i, (i < n)%nat -> g i = h i) -> flat_map g (seq 0 n) = flat_map h (seq 0 n).
Proof.
  intros H. assert (forall i, In i (seq 0 n) -> g i = h i) as HH by (intros i Hi; apply in_seq in Hi; apply H; lia).
  induction (seq 0 n) as [|a l IH]; cbn [flat_map]; [reflexivity|].
  rewrite (HH a (or_introl eq_refl)), IH; [reflexivity|]. intros i Hi. apply HH. right. exact Hi.
Qed.

Lemma sim_userve x y f N v x' : simu x y f N -> (forall k, uuses A y = Some k -> K k = true) ->
  mine me x v = true -> v <> UClient -> move x v = Some x' ->
  exists y' f', go_s y = Some y' /\ simu x' y' f' N.
Proof.
  intros S HK Hm Hv. pose proof S as [S1 S2 S3 S4 S5 S6 S7 S8 S9 S10].
  destruct v as [| |j|j|a d|k]; try discriminate Hm; try (destruct (Hv eq_refl)); cbn [usys_move mine] in *.
  - (* a datagram of the client is received *)
    destruct (v_q x) as [|[a d] q] eqn:Eq; [discriminate|]. rewrite Hm. intros H; apply some_inj in H; subst x'.
    destruct (bytes_eqb_spec a me) as [->|]; [|discriminate].
    assert (Hq : own_q x = (me, d) :: filter (fun p => bytes_eqb (fst p) me) q).
    { unfold own_q. rewrite Eq. cbn [filter fst]. rewrite bytes_eqb_refl. reflexivity. }
    unfold ugo_s, steady in *. destruct (w_mode y) as [m0|m0 d0|m0 c0]; cbn [at_mode] in S9.
    + destruct S9 as (_ & _ & Q). congruence.
    + destruct S9 as (Q1 & Q2 & Q3). rewrite Q3 in Hq. injection Hq as -> Hq.
      eexists _, f. split; [reflexivity|]. constructor; flds; auto.
      * intros i Hi. unfold upd. destruct (Nat.eqb_spec (2 * i) (2 * v_mine x)); [reflexivity|]. apply S4. lia.
      * intros i Hi. unfold upd. destruct (Nat.eqb_spec (2 * i + 1) (2 * v_mine x)); [lia|]. apply S5, Hi.
      * intros i Hi. unfold upd, set_conn. flds. cbn [fst snd].
        destruct (Nat.eqb_spec (2 * i + 1) (2 * v_mine x)); [lia|]. apply S6, Hi.
      * intros i Hi. unfold upd. destruct (Nat.eqb_spec (2 * i) (2 * v_mine x)); [lia|]. apply S7, Hi.
      * rewrite <- S8. apply seq_calls. intros i Hi. cbn [set_conn t_conn fst snd]. rewrite (eqb_ne (2 * i) (2 * v_mine x)) by lia. reflexivity.
      * cbn [at_mode]. unfold own_q in *. flds. cbn [set_conn t_conn t_mem fst snd]. split; [exact Q1|]. split; [lia|].
        split; [symmetry; exact Hq|]. rewrite <- Q2. unfold upd. rewrite Nat.eqb_refl. split; [reflexivity|].
        repeat split. cbn. apply ev_request, any_own.
    + destruct S9 as (_ & _ & Q & _). congruence.
  - (* a goroutine of the client goes on *)
    destruct (c_prog (t_conn (v_srv x) j)) as [| |R e kk] eqn:Ep; try discriminate.
    destruct (runs x j) eqn:Er; [|discriminate]. intros H; apply some_inj in H; subst x'.
    destruct (even_half j Hm) as [k ->]. destruct (runs_latest x y f N k S Er) as (-> & m0 & c0 & Emo).
    apply runs_even in Er. destruct Er as [Er1 Er2].
    unfold uuses in HK. unfold ugo_s, steady in *. rewrite Emo in *. cbn [at_mode] in S9. destruct S9 as (Q1 & Q2 & Q3 & Q4 & Q5).
    assert (HK' : forall k, next_key (c_prog (t_conn (v_srv x) (2 * w_k y))) = Some k -> K k = true).
    { intros k Hk. apply HK. destruct Q5 as (_ & _ & _ & _ & A5). destruct A5; try discriminate Hk; try exact Hk. }
    destruct (g_step C (SE (w_k y)) false K any f N _ _ _ _ (any_own C _) HK' Q1 Q5) as (f' & Hs & R' & C').
    assert (exists R' (e' : seff R') k', c_prog c0 = SDo e' k') as (R2 & e2 & k2 & Ec).
    { destruct Q5 as (_ & _ & _ & _ & A5). destruct A5; try discriminate Ep; eauto. }
    rewrite Ec. eexists _, f'. split; [reflexivity|].
    assert (Efrom : v_from x (2 * w_k y) = me) by (apply S4; lia).
    constructor; flds; auto.
    + intros i Hi. cbn [set_conn t_conn fst snd]. rewrite (eqb_ne (2 * i + 1) (2 * w_k y)) by lia. apply S6, Hi.
    + rewrite <- S8. apply seq_calls. intros i Hi. cbn [set_conn t_conn fst snd]. rewrite (eqb_ne (2 * i) (2 * w_k y)) by lia. reflexivity.
    + cbn [at_mode]. unfold own_q in *. flds. cbn [set_conn t_conn t_mem fst snd]. rewrite Efrom, Nat.eqb_refl.
      split; [exact R'|]. split; [exact Q2|]. split; [exact Q3|]. split; [exact Q4|]. exact C'.
  - (* it is over *)
    intros H.
    assert (Hx : runs x j = true /\ x' = {| v_cl := v_cl x;
        v_cx := if bytes_eqb (v_from x j) me then deliver srv (wire (MultiConn.c_sent (t_conn (v_srv x) j))) (v_cx x) else v_cx x; v_cs := v_cs x;
                    v_q := v_q x; v_srv := v_srv x; v_from := v_from x; v_done := upd (v_done x) j true;
                    v_mine := v_mine x; v_others := v_others x |} /\ forall R (e : seff R) k, c_prog (t_conn (v_srv x) j) <> SDo e k).
    { destruct (c_prog (t_conn (v_srv x) j)); try discriminate H; destruct (runs x j); try discriminate H; injection H as <-;
        (split; [reflexivity|]); (split; [reflexivity|]); discriminate. }
    clear H. destruct Hx as (Er & -> & Hnd).
    destruct (even_half j Hm) as [k ->]. destruct (runs_latest x y f N k S Er) as (-> & m0 & c0 & Emo).
    apply runs_even in Er. destruct Er as [Er1 Er2].
    unfold ugo_s, steady in *. rewrite Emo in *. cbn [at_mode] in S9. destruct S9 as (Q1 & Q2 & Q3 & Q4 & Q5).
    assert (Efrom : v_from x (2 * w_k y) = me) by (apply S4; lia). rewrite Efrom, bytes_eqb_refl.
    destruct Q5 as (A1 & A2 & A3 & A4 & A5). rewrite A3.
    assert (exists y1, (match c_prog c0 with
      | SDo _ _ => Some {| w_cl := w_cl y; w_cx := w_cx y; w_cs := w_cs y;
                  w_mode := UBusy (fst (conn_step C (SE (w_k y)) false m0 c0)) (snd (conn_step C (SE (w_k y)) false m0 c0));
                  w_k := w_k y; w_calls := w_calls y |}
      | _ => Some {| w_cl := w_cl y; w_cx := deliver srv (wire (MultiConn.c_sent c0)) (w_cx y); w_cs := w_cs y;
                  w_mode := UIdle m0; w_k := Datatypes.S (w_k y); w_calls := w_calls y ++ seen (c_calls c0) |} end) = Some y1 /\
      y1 = {| w_cl := w_cl y; w_cx := deliver srv (wire (MultiConn.c_sent c0)) (w_cx y); w_cs := w_cs y;
                  w_mode := UIdle m0; w_k := Datatypes.S (w_k y); w_calls := w_calls y ++ seen (c_calls c0) |}) as (y1 & -> & ->).
    { destruct A5; try (eexists; split; reflexivity); exfalso; eapply Hnd; reflexivity. }
    eexists _, f. split; [reflexivity|]. constructor; flds; auto.
    + rewrite S2. reflexivity.
    + intros i Hi. unfold upd. destruct (Nat.eqb_spec (2 * i) (2 * w_k y)); [reflexivity|]. apply S7. lia.
    + rewrite seq_S, flat_map_app, Nat.add_0_l. cbn [flat_map]. rewrite app_nil_r, S8, A4. reflexivity.
    + cbn [at_mode]. unfold own_q in *. flds. split; [exact Q1|]. split; [exact Q2|exact Q3].
    + exact I.
Qed.

(** The others. *)
Definition mode_mem (mo : umode) : mem := match mo with UIdle m | UQueued m _ | UBusy m _ => m end.
Lemma at_mode_mem x f N k mo : at_mode x f N k mo -> rel K f N (t_mem (v_srv x)) (mode_mem mo).
Proof. destruct mo; intros (Q & _); exact Q. Qed.
Lemma at_mode_same x x' f N N' k mo : at_mode x f N k mo ->
  rel K f N' (t_mem (v_srv x')) (mode_mem mo) ->
  v_mine x' = v_mine x -> own_q x' = own_q x -> v_done x' (2 * k) = v_done x (2 * k) ->
  t_conn (v_srv x') (2 * k) = t_conn (v_srv x) (2 * k) -> at_mode x' f N' k mo.
Proof.
  intros H Hr H1 H2 H3 H4. destruct mo; cbn [at_mode] in *; rewrite ?H1, ?H2, ?H3, ?H4.
  - destruct H as (Q1 & Q2). auto.
  - destruct H as (Q1 & Q2). auto.
  - destruct H as (Q1 & Q2). auto.
Qed.

Lemma sim_urest x y f N v x' : simu x y f N -> uspares1 key x v -> mine me x v = false -> move x v = Some x' ->
  exists N', simu x' y f N'.
Proof.
  intros S Hsp Hm. pose proof S as [S1 S2 S3 S4 S5 S6 S7 S8 S9 S10].
  destruct v as [| |j|j|a d|k]; try discriminate Hm; cbn [usys_move mine uspares1] in *.
  - destruct (v_q x) as [|[a d] q] eqn:Eq; [discriminate|]. rewrite Hm. intros H; apply some_inj in H; subst x'.
    destruct (bytes_eqb_spec a me) as [|Ha]; [discriminate|].
    exists N. constructor; flds; auto.
    + intros i Hi. unfold upd. destruct (Nat.eqb_spec (2 * i) (2 * v_others x + 1)); [lia|]. apply S4, Hi.
    + intros i Hi. unfold upd. destruct (Nat.eqb_spec (2 * i + 1) (2 * v_others x + 1)); [exact Ha|]. apply S5. lia.
    + intros i Hi. unfold upd. cbn [set_conn t_conn fst snd].
      destruct (Nat.eqb_spec (2 * i + 1) (2 * v_others x + 1)); [|apply S6; lia].
      exists (one_request C). cbn [fresh_conn c_prog]. apply ev_request, any_own.
    + intros i Hi. unfold upd. destruct (Nat.eqb_spec (2 * i) (2 * v_others x + 1)); [lia|]. apply S7, Hi.
    + rewrite <- S8. apply seq_calls. intros i Hi. cbn [set_conn t_conn fst snd]. rewrite (eqb_ne (2 * i) (2 * v_others x + 1)) by lia. reflexivity.
    + eapply at_mode_same; [exact S9|..]; flds; auto.
      * cbn [set_conn t_mem fst]. apply (at_mode_mem _ _ _ _ _ S9).
      * unfold own_q. flds. rewrite Eq. cbn [filter fst]. destruct (bytes_eqb_spec a me); [contradiction|reflexivity].
      * unfold upd. rewrite (eqb_ne (2 * w_k y) (2 * v_others x + 1)) by lia. reflexivity.
      * cbn [set_conn t_conn fst snd]. rewrite (eqb_ne (2 * w_k y) (2 * v_others x + 1)) by lia. reflexivity.
  - destruct (c_prog (t_conn (v_srv x) j)) as [| |R e kk] eqn:Ep; try discriminate.
    destruct (runs x j) eqn:Er; [|discriminate]. intros H; apply some_inj in H; subst x'.
    destruct (odd_half j Hm) as [k ->]. apply runs_odd in Er. destruct Er as [Er1 Er2].
    assert (HK' : forall q, next_key (c_prog (t_conn (v_srv x) (2 * k + 1))) = Some q -> K q = false).
    { intros q Hq. unfold K. rewrite Ep in Hq. destruct (bytes_eqb_spec q key) as [->|]; [|reflexivity]. destruct (Hsp Hm Hq). }
    destruct (MultiProofs.n_step C (dgram_env (E (2 * k + 1)) (hostof (v_from x (2 * k + 1)))) false K any f N _ _ _ (any_own C _) HK'
      (at_mode_mem _ _ _ _ _ S9) (S6 k Er1)) as (N' & Hs & R' & C').
    exists N'. constructor; flds; auto.
    + intros i Hi. cbn [set_conn t_conn fst snd]. destruct (Nat.eqb_spec (2 * i + 1) (2 * k + 1)) as [Ei|Ei].
      * assert (i = k) by lia. subst i. exact C'.
      * eapply nrel_mono; [exact Hs|]. apply S6, Hi.
    + rewrite <- S8. apply seq_calls. intros i Hi. cbn [set_conn t_conn fst snd]. rewrite (eqb_ne (2 * i) (2 * k + 1)) by lia. reflexivity.
    + eapply at_mode_same; [exact S9|..]; flds; auto.
      * cbn [set_conn t_conn fst snd]. rewrite (eqb_ne (2 * w_k y) (2 * k + 1)) by lia. reflexivity.
  - intros H.
    assert (Hx : runs x j = true /\ x' = {| v_cl := v_cl x;
        v_cx := if bytes_eqb (v_from x j) me then deliver srv (wire (MultiConn.c_sent (t_conn (v_srv x) j))) (v_cx x) else v_cx x; v_cs := v_cs x;
                    v_q := v_q x; v_srv := v_srv x; v_from := v_from x; v_done := upd (v_done x) j true;
                    v_mine := v_mine x; v_others := v_others x |}).
    { destruct (c_prog (t_conn (v_srv x) j)); try discriminate H; destruct (runs x j); try discriminate H; injection H as <-; auto. }
    clear H. destruct Hx as (Er & ->). destruct (odd_half j Hm) as [k ->]. apply runs_odd in Er. destruct Er as [Er1 Er2].
    exists N. constructor; flds; auto.
    + destruct (bytes_eqb_spec (v_from x (2 * k + 1)) me) as [Ef|]; [destruct (S5 k Er1 Ef)|exact S2].
    + intros i Hi. unfold upd. rewrite (eqb_ne (2 * i) (2 * k + 1)) by lia. apply S7, Hi.
    + eapply at_mode_same; [exact S9|..]; flds; auto.
      * apply (at_mode_mem _ _ _ _ _ S9).
      * unfold upd. rewrite (eqb_ne (2 * w_k y) (2 * k + 1)) by lia. reflexivity.
  - destruct (bytes_eqb_spec a me) as [|Ha]; [discriminate|]. intros H; apply some_inj in H; subst x'.
    exists N. constructor; flds; auto.
    eapply at_mode_same; [exact S9|..]; flds; auto.
    + apply (at_mode_mem _ _ _ _ _ S9).
    + unfold own_q. flds. apply filter_none, Ha.
  - intros H; apply some_inj in H; subst x'. exists N. constructor; flds; auto.
    eapply at_mode_same; [exact S9|..]; flds; auto.
    destruct (at_mode_mem _ _ _ _ _ S9) as [Rf Ri Rl Rh Ro Rlo Rd Rot]. constructor; cbn -[Nat.mul]; auto.
    + intros q Hq. destruct (bytes_eqb_spec q k) as [->|]; [|apply Ro, Hq].
      exfalso. unfold K in Hq. destruct (bytes_eqb_spec k key) as [->|]; [contradiction|discriminate].
    + intros q a Hq Ha. destruct (bytes_eqb q k); [discriminate|eauto].
Qed.

(** ** Any schedule *)
Lemma sim_usched sched : forall x y f N x' m t z, simu x y f N -> path y m t z -> ends _ go_c go_s z -> Forall good t ->
  (forall R e k, w_cl z <> @CDo A R e k) ->
  uspares C CE E hostof chunk me srv key sched x -> usys_run C CE E hostof chunk me srv sched x = Some x' ->
  exists y' f' N' m' t', simu x' y' f' N' /\ path y' m' t' z /\ Forall good t' /\
    m = (uown_moves C CE E hostof chunk me srv sched x + m')%nat.
Proof.
  induction sched as [|v l IH]; intros x y f N x' m t z S P Hz G Hcl Hsp Hrun.
  { cbn in Hrun. injection Hrun as <-. exists y, f, N, m, t. auto. }
  cbn [usys_run uspares uown_moves] in Hsp, Hrun |- *. destruct Hsp as [Hsp1 Hsp2].
  destruct (move x v) as [x1|] eqn:Ev; [|discriminate].
  destruct (mine me x v) eqn:Hm.
  2:{ destruct (sim_urest x y f N v x1 S Hsp1 Hm Ev) as (N' & S').
      exact (IH x1 y f N' x' m t z S' P Hz G Hcl Hsp2 Hrun). }
  assert (Hc : v = UClient \/ v <> UClient) by (destruct v; ((left; reflexivity) || (right; discriminate))).
  destruct Hc as [->|Hc].
  - pose proof (sim_uclient x y f N m t z S P Hz Hcl) as SC. rewrite Ev in SC. destruct SC as (y1 & Ey & S').
    destruct (one_l _ _ _ _ _ (udiamond C CE SE chunk srv A) _ _ _ _ P Hz _ Ey) as (m1 & -> & P1).
    destruct (IH x1 y1 f N x' m1 t z S' P1 Hz G Hcl Hsp2 Hrun) as (y' & f' & N2 & m' & t' & H1 & H2 & H3 & H4).
    exists y', f', N2, m', t'. split; [exact H1|]. split; [exact H2|]. split; [exact H3|]. rewrite H4. reflexivity.
  - destruct (sim_userve x y f N v x1 S (good_head y m t z P Hz G) Hm Hc Ev) as (y1 & f1 & Ey & S').
    destruct (one_r _ _ _ _ _ (udiamond C CE SE chunk srv A) _ _ _ _ P Hz _ Ey) as (m1 & t1 & -> & -> & P1).
    inversion G as [|? ? G1 G2]; subst.
    destruct (IH x1 y1 f1 N x' m1 t1 z S' P1 Hz G2 Hcl Hsp2 Hrun) as (y' & f' & N2 & m' & t' & H1 & H2 & H3 & H4).
    exists y', f', N2, m', t'. split; [exact H1|]. split; [exact H2|]. split; [exact H3|]. rewrite H4. reflexivity.
Qed.

(** Ends correspond. *)
Lemma sim_urests x y f N z m t : simu x y f N -> path y m t z -> ends _ go_c go_s z -> Forall good t ->
  (forall R e k, w_cl z <> @CDo A R e k) ->
  urests C CE E hostof chunk me srv x <-> m = 0%nat.
Proof.
  intros S P Hz G Hcl. split.
  - intros [Rm Rq]. inversion P as [|? y1 ? m1 t1 Hl Hp|? y1 ? m1 t1 Hr Hp]; subst; [reflexivity| |]; exfalso.
    + pose proof (sim_uclient x y f N _ _ z S P Hz Hcl) as SC. rewrite (Rm UClient eq_refl) in SC. congruence.
    + pose proof S as [S1 S2 S3 S4 S5 S6 S7 S8 S9 S10]. unfold ugo_s in Hr.
      destruct (w_mode y) as [m0|m0 d0|m0 c0]; cbn [at_mode] in S9; [discriminate| |].
      * destruct S9 as (_ & _ & Q). assert (Hin : In (me, d0) (own_q x)) by (rewrite Q; left; reflexivity).
        unfold own_q in Hin. apply filter_In in Hin. destruct Hin as [Hin _]. rewrite Forall_forall in Rq. apply (Rq _ Hin). reflexivity.
      * destruct S9 as (Q1 & Q2 & Q3 & Q4 & Q5).
        assert (Hruns : runs x (2 * w_k y) = true).
        { unfold runs. rewrite even_double, Nat.div2_double, Q2, Q4. cbn [negb]. rewrite andb_true_r. apply Nat.ltb_lt. lia. }
        pose proof (Rm (UStep (2 * w_k y)) (even_double _)) as R1. pose proof (Rm (UAnswer (2 * w_k y)) (even_double _)) as R2.
        cbn [usys_move] in R1, R2. rewrite Hruns in R1, R2.
        destruct (c_prog (t_conn (v_srv x) (2 * w_k y))); discriminate.
  - intros ->. inversion P; subst. destruct Hz as [Z1 Z2].
    assert (Hz : ends _ go_c go_s z) by (split; assumption).
    pose proof S as [S1 S2 S3 S4 S5 S6 S7 S8 S9 S10].
    assert (Hidle : exists m0, w_mode z = UIdle m0).
    { unfold ugo_s in Z2. destruct (w_mode z) as [m0|m0 d0|m0 c0]; [eauto|discriminate|]. destruct (c_prog c0); discriminate. }
    destruct Hidle as [m0 Emo]. rewrite Emo in S9. cbn [at_mode] in S9. destruct S9 as (Q1 & Q2 & Q3).
    split.
    + intros v Hm. destruct (move x v) as [x'|] eqn:Ev; [exfalso|reflexivity].
      assert (Hc : v = UClient \/ v <> UClient) by (destruct v; ((left; reflexivity) || (right; discriminate))).
      destruct Hc as [->|Hc].
      * pose proof (sim_uclient x z f N _ _ z S P Hz Hcl) as SC. rewrite Ev in SC. destruct SC as (y1 & Ey & _). congruence.
      * destruct (sim_userve x z f N v x' S (good_head z _ _ z P Hz G) Hm Hc Ev) as (y1 & f1 & Ey & _). congruence.
    + apply Forall_forall. intros p Hp He. assert (Hin : In p (own_q x)).
      { apply filter_In. split; [exact Hp|]. rewrite He. apply bytes_eqb_refl. }
      rewrite Q3 in Hin. destruct Hin.
Qed.

(** What the application saw so far. *)
Definition w_seen (y : uduo A) : list (N * bool * bytes) :=
  w_calls y ++ match w_mode y with UBusy _ c => seen (c_calls c) | _ => [] end.
Lemma sim_ucalls x y f N : simu x y f N -> ucalls x = w_seen y.
Proof.
  intros [S1 S2 S3 S4 S5 S6 S7 S8 S9 S10]. unfold ucalls, w_seen. destruct (w_mode y) as [m|m d|m c]; cbn [at_mode] in S9.
  - destruct S9 as (_ & -> & _). rewrite app_nil_r. exact S8.
  - destruct S9 as (_ & -> & _). rewrite app_nil_r. exact S8.
  - destruct S9 as (_ & -> & _ & _ & (_ & _ & _ & A4 & _)).
    rewrite seq_S, flat_map_app, Nat.add_0_l. cbn [flat_map]. rewrite app_nil_r, S8, A4. reflexivity.
Qed.

Lemma conn_step_calls Ej m c : exists l, c_calls (snd (conn_step C Ej false m c)) = c_calls c ++ l.
Proof.
  unfold conn_step. destruct (c_prog c) as [[|]| |R e k]; try (exists []; rewrite app_nil_r; reflexivity).
  destruct (sexec_calls C Ej e (join m c)) as (l & H). destruct (sexec C Ej e (join m c)) as [r s]. exists l. exact H.
Qed.
Lemma upath_seen y m t z : path y m t z -> exists l, w_seen z = w_seen y ++ l.
Proof.
  induction 1 as [x|x y z n t Hl Hp IH|x y z n t Hr Hp IH].
  - exists []. rewrite app_nil_r. reflexivity.
  - destruct IH as (l & IH). exists l. rewrite IH. f_equal. unfold ugo_c in Hl. unfold w_seen.
    destruct (w_cl x) as [| |R e k]; try discriminate. destruct (local e); [injection Hl as <-; reflexivity|].
    destruct (w_mode x); try discriminate. destruct (ucexec _ _ _ _ _ _ _) as [r [cx s]].
    destruct (is_write e).
    + destruct (left_socket _ _) as [|d [|]]; try discriminate. destruct (_ && _); [|discriminate]. injection Hl as <-. reflexivity.
    + destruct (u_ready _ _); [|discriminate]. injection Hl as <-. reflexivity.
  - destruct IH as (l & IH). unfold ugo_s in Hr. unfold w_seen in *. destruct (w_mode x) as [m|m d|m c]; [discriminate| |].
    + injection Hr as <-. cbn [w_mode w_calls] in IH. exists l. rewrite IH. cbn [fresh_conn c_calls]. reflexivity.
    + destruct (c_prog c) as [b| |R e k].
      * injection Hr as <-. cbn [w_mode w_calls] in IH. rewrite app_nil_r in IH. eauto.
      * injection Hr as <-. cbn [w_mode w_calls] in IH. rewrite app_nil_r in IH. eauto.
      * destruct (conn_step_calls (SE (w_k x)) m c) as (l1 & H1). injection Hr as <-. cbn [w_mode w_calls] in IH.
        rewrite H1 in IH. unfold seen in *. rewrite map_app in IH. rewrite IH. eexists. rewrite <- !app_assoc. reflexivity.
Qed.
Lemma upath_done y m t z : path y m t z -> (forall a, w_cl y = CRet a -> w_cl z = CRet a) /\ (w_cl y = CPanic -> w_cl z = CPanic).
Proof.
  induction 1 as [x|x y z n t Hl Hp IH|x y z n t Hr Hp IH]; [auto| |].
  - unfold ugo_c in Hl. split; [intros a Ha|intros Ha]; rewrite Ha in Hl; discriminate.
  - assert (Ecl : w_cl y = w_cl x).
    { unfold ugo_s in Hr. destruct (w_mode x) as [m|m d|m c]; [discriminate|injection Hr as <-; reflexivity|].
      destruct (c_prog c); injection Hr as <-; reflexivity. }
    rewrite Ecl in IH. exact IH.
Qed.
End Sim.
