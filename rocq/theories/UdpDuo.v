(** The client and the server's goroutines for it by themselves: any order of
    their steps leads to the same end. *)
From Verif Require Import Bytes BytesProofs Parser ParserProofs Crypto Kdf Wire WireProofs WireSeq WireExtra Replay SpecReplay
  ReplayProofs Server ServerSeq SpecServer ServerProofs ServerProps ServerProps2 ServerProps3 MultiConn SpecMulti Keys KeysProofs
  Client ClientSeq SpecClient ClientProofs SpecE2E E2EProofs System SpecSystem Kahn Duo DuoRun DuoTalk SystemSim
  Udp SpecUdp UdpProofs UdpThms UdpSystem SpecUdpSystem.

(** Nothing under way, a datagram of the client at the server, or a goroutine
    that handles it. *)
Inductive umode := UIdle (m : mem) | UQueued (m : mem) (d : bytes) | UBusy (m : mem) (c : conn).
Record uduo (A : Type) := {
  w_cl : cprog A; w_cx : udpc * unet; w_cs : cst; w_mode : umode; w_k : nat; w_calls : list (N * bool * bytes) }.
Arguments w_cl {A}. Arguments w_cx {A}. Arguments w_cs {A}. Arguments w_mode {A}. Arguments w_k {A}. Arguments w_calls {A}.

Definition is_read {R} (e : ceff R) : bool := match e with CRead _ | CCopy _ => true | _ => false end.
Definition is_write {R} (e : ceff R) : bool := match e with CWrite _ => true | _ => false end.
Definition local {R} (e : ceff R) : bool := negb (is_read e) && negb (is_write e).
Definition positive {R} (e : ceff R) : bool := match e with CRead n | CCopy n => negb (n =? 0) | _ => true end.

Section UDuo.
Variables (C : Crypto) (CE : cenv) (SE : nat -> senv) (chunk : nat -> N) (srv : bytes) (A : Type).
Notation ucx := (ucexec C CE chunk (fun _ => fits)).

(** The client will wait for a datagram before it sends another. *)
Fixpoint waits {B} (p : cprog B) (s : cst) : bool :=
  match p with
  | CDo e k => if is_read e then positive e
               else if is_write e then false
               else waits (k (fst (cexec C CE e s))) (snd (cexec C CE e s))
  | _ => false
  end.

Definition ugo_c (y : uduo A) : option (uduo A) :=
  match w_cl y with
  | CDo e k =>
      if local e then
        Some {| w_cl := k (fst (cexec C CE e (w_cs y))); w_cx := w_cx y; w_cs := snd (cexec C CE e (w_cs y));
                w_mode := w_mode y; w_k := w_k y; w_calls := w_calls y |}
      else
        match w_mode y with
        | UIdle m =>
            let '(r, (cx, s)) := ucx e (w_cx y) (w_cs y) in
            if is_write e then
              match left_socket (w_cx y) cx with
              | [d] =>
                  if waits (k r) s && negb (u_read (fst cx)) && match n_in (snd cx) with [] => true | _ => false end then
                    Some {| w_cl := k r; w_cx := cx; w_cs := s; w_mode := UQueued m d; w_k := w_k y; w_calls := w_calls y |}
                  else None
              | _ => None
              end
            else if u_ready e (w_cx y) then
              Some {| w_cl := k r; w_cx := cx; w_cs := s; w_mode := UIdle m; w_k := w_k y; w_calls := w_calls y |}
            else None
        | _ => None
        end
  | _ => None
  end.

Definition ugo_s (y : uduo A) : option (uduo A) :=
  match w_mode y with
  | UIdle _ => None
  | UQueued m d =>
      Some {| w_cl := w_cl y; w_cx := w_cx y; w_cs := w_cs y; w_mode := UBusy m (fresh_conn C false d);
              w_k := w_k y; w_calls := w_calls y |}
  | UBusy m c =>
      match c_prog c with
      | SDo _ _ =>
          Some {| w_cl := w_cl y; w_cx := w_cx y; w_cs := w_cs y;
                  w_mode := UBusy (fst (conn_step C (SE (w_k y)) false m c)) (snd (conn_step C (SE (w_k y)) false m c));
                  w_k := w_k y; w_calls := w_calls y |}
      | _ =>
          Some {| w_cl := w_cl y; w_cx := deliver srv (wire (MultiConn.c_sent c)) (w_cx y); w_cs := w_cs y;
                  w_mode := UIdle m; w_k := S (w_k y); w_calls := w_calls y ++ seen (c_calls c) |}
      end
  end.

Definition uuses (y : uduo A) : option bytes :=
  match w_mode y with UBusy _ c => next_key (c_prog c) | _ => None end.

Notation path := (path (uduo A) (option bytes) ugo_c ugo_s uuses).

Lemma udiamond x y z : ugo_c x = Some y -> ugo_s x = Some z ->
  (exists w, ugo_s y = Some w /\ ugo_c z = Some w) /\ uuses y = uuses x.
Proof.
  destruct x as [cl cx cs mo k ca]. unfold ugo_c at 1. unfold ugo_s at 1. cbn [w_cl w_cx w_cs w_mode w_k w_calls].
  destruct cl as [a| |R e kk]; try discriminate.
  destruct (local e) eqn:Hl.
  2:{ destruct mo as [m|m d|m c]; try discriminate. }
  intros H; injection H as <-. intros H. split; [|reflexivity].
  unfold ugo_s, ugo_c. cbn [w_cl w_cx w_cs w_mode w_k w_calls].
  destruct mo as [m|m d|m c]; try discriminate H.
  - injection H as <-. eexists. split; [reflexivity|]. cbn [w_cl w_cx w_cs w_mode w_k w_calls]. rewrite Hl. reflexivity.
  - destruct (c_prog c) as [b| |R' e' k']; injection H as <-; (eexists; split; [reflexivity|]);
      cbn [w_cl w_cx w_cs w_mode w_k w_calls]; rewrite Hl; reflexivity.
Qed.

(** ** Sequential runs as paths *)
Lemma upath_srun P (p : sprog bool) : forall s cl cx cs k ca r s', srun C (SE k) p s = (Some r, s') ->
  touches C (SE k) P p s ->
  exists n t, path {| w_cl := cl; w_cx := cx; w_cs := cs; w_mode := UBusy (mem_of s) (conn_of p s); w_k := k; w_calls := ca |} n t
                   {| w_cl := cl; w_cx := cx; w_cs := cs; w_mode := UBusy (mem_of s') (conn_of (SRet r) s'); w_k := k; w_calls := ca |} /\
    Forall (fun l => forall key, l = Some key -> P key) t.
Proof.
  induction p as [a| |R e kk IH]; intros s cl cx cs k ca r s' H HT; cbn [srun touches] in H, HT.
  - injection H as <- <-. exists 0%nat, []. split; [apply path_nil|constructor].
  - discriminate.
  - destruct HT as [HT1 HT2]. destruct (sexec C (SE k) e s) as [r0 s0] eqn:Ee. cbn [fst snd] in HT2.
    destruct (IH r0 s0 cl cx cs k ca r s' H HT2) as (n & t & Hp & F).
    exists (S n), (key_of e :: t). split; [|constructor; [exact HT1|exact F]].
    change (key_of e) with (uuses {| w_cl := cl; w_cx := cx; w_cs := cs; w_mode := UBusy (mem_of s) (conn_of (SDo e kk) s);
       w_k := k; w_calls := ca |}).
    eapply path_r; [|exact Hp]. unfold ugo_s. cbn [w_cl w_cx w_cs w_mode w_k w_calls conn_of c_prog].
    unfold conn_step. change (c_prog (conn_of (SDo e kk) s)) with (SDo e kk). cbn iota.
    rewrite join_of, Ee. reflexivity.
Qed.

(** The goroutine from the datagram to its answer. *)
Lemma upath_serve P m d cl cx cs k ca r s' :
  srun C (SE k) (one_request C) (join m (fresh_conn C false d)) = (Some r, s') ->
  touches C (SE k) P (one_request C) (join m (fresh_conn C false d)) ->
  exists n t, path {| w_cl := cl; w_cx := cx; w_cs := cs; w_mode := UQueued m d; w_k := k; w_calls := ca |} n t
    {| w_cl := cl; w_cx := deliver srv (wire (s_sent s')) cx; w_cs := cs; w_mode := UIdle (mem_of s'); w_k := S k;
       w_calls := ca ++ seen (s_calls s') |} /\
    Forall (fun l => forall key, l = Some key -> P key) t.
Proof.
  intros H HT. destruct (upath_srun P _ _ cl cx cs k ca r s' H HT) as (n & t & Hp & F).
  set (x0 := {| w_cl := cl; w_cx := cx; w_cs := cs; w_mode := UQueued m d; w_k := k; w_calls := ca |}).
  set (x1 := {| w_cl := cl; w_cx := cx; w_cs := cs; w_mode := UBusy (mem_of s') (conn_of (SRet r) s'); w_k := k; w_calls := ca |}) in *.
  exists (S (n + 1)), (uuses x0 :: t ++ [uuses x1]). split.
  - eapply path_r; [reflexivity|]. eapply path_app; [|eapply path_r; [|apply path_nil]; reflexivity].
    change (mem_of (join m (fresh_conn C false d))) with {| m_map := m_map m; m_heap := m_heap m; m_next := m_next m |} in Hp.
    destruct m as [ma mb mc]. exact Hp.
  - constructor; [discriminate|]. apply Forall_app. split; [exact F|]. constructor; [discriminate|constructor].
Qed.

(** A part of the client's program that only reads, once there is a datagram. *)
Lemma holds_ready {R} (e : ceff R) u net i q : holds u net i q -> u_ready e (u, net) = true.
Proof.
  intros H. destruct e; cbn [u_ready fst snd]; try reflexivity; destruct H as [(-> & _)|(_ & _ & a & ->)];
    rewrite ?Bool.orb_true_r; reflexivity.
Qed.
Lemma ucexec_local {R} (e : ceff R) cx s : local e = true ->
  ucx e cx s = (fst (cexec C CE e s), (cx, snd (cexec C CE e s))).
Proof. destruct e; try discriminate; cbn [ucexec]; intros _; destruct (cexec _ _ _ s); reflexivity. Qed.

Lemma upath_reads {B} (F : cprog B -> cprog A) : (forall R (e : ceff R) k, F (CDo e k) = CDo e (fun r => F (k r))) ->
  forall (p : cprog B), nowrite p -> forall u net s i q m k ca r s1, holds u net i q ->
  crun C (eof_env CE) p (c_set_in s i) = (Some r, s1) ->
  exists n u' net' s', path {| w_cl := F p; w_cx := (u, net); w_cs := s; w_mode := UIdle m; w_k := k; w_calls := ca |} n []
                            {| w_cl := F (CRet r); w_cx := (u', net'); w_cs := s'; w_mode := UIdle m; w_k := k; w_calls := ca |} /\
    s1 = c_set_in s' (c_in s1) /\ holds u' net' (c_in s1) q /\ rel1 u net u' net' /\ (u_read u' = false -> c_in s1 = i).
Proof.
  intros HF p. induction p as [a| |R e kk IH]; intros Hp u net s i q m k ca r s1 Hh Hrun.
  - cbn in Hrun. injection Hrun as <- <-. exists 0%nat, u, net, s. split; [apply path_nil|]. cbn. auto using rel1_refl.
  - discriminate.
  - destruct Hp as [Hw Hk].
    assert (Hnw : is_write e = false) by (destruct e; try reflexivity; contradiction).
    assert (G : forall r0 u1 n1 s0 i1, ucx e (u, net) s = (r0, ((u1, n1), s0)) ->
       cexec C (eof_env CE) e (c_set_in s i) = (r0, c_set_in s0 i1) -> holds u1 n1 i1 q -> rel1 u net u1 n1 -> (u_read u1 = false -> i1 = i) ->
       exists n u' net' s', path {| w_cl := F (CDo e kk); w_cx := (u, net); w_cs := s; w_mode := UIdle m; w_k := k; w_calls := ca |} n []
                            {| w_cl := F (CRet r); w_cx := (u', net'); w_cs := s'; w_mode := UIdle m; w_k := k; w_calls := ca |} /\
         s1 = c_set_in s' (c_in s1) /\ holds u' net' (c_in s1) q /\ rel1 u net u' net' /\ (u_read u' = false -> c_in s1 = i)).
    { intros r0 u1 n1 s0 i1 E1 E2 H1 R1 Q1. cbn [crun] in Hrun. rewrite E2 in Hrun.
      destruct (IH r0 (Hk r0) u1 n1 s0 i1 q m k ca r s1 H1 Hrun) as (n & u' & net' & s' & P1 & X2 & X3 & X4 & X5).
      exists (S n), u', net', s'. split; [|split; [exact X2|split; [exact X3|split; [eapply rel1_trans; eassumption|]]]].
      2:{ intros Z. rewrite (X5 Z). apply Q1. apply X4, Z. }
      rewrite HF. eapply path_l; [|exact P1]. unfold ugo_c. cbn [w_cl w_cx w_cs w_mode w_k w_calls].
      destruct (local e) eqn:Hl.
      - rewrite (ucexec_local e (u, net) s Hl) in E1. injection E1 as <- <- <- <-. reflexivity.
      - rewrite E1, Hnw, (holds_ready e u net i q Hh). reflexivity. }
    clear IH. pose proof (rel1_refl u net) as R0.
    destruct e; cbn [ucexec cexec] in G; try contradiction Hw.
    1:{ destruct (udp_readfull_holds chunk n u net i q Hh) as (u' & net' & X & Y & Z & Z'). rewrite X in G.
      cbn [c_in c_set_in eof_env ce_end] in G.
      destruct (fl_read n i EndEOF) as [r0 i']. eapply G; [reflexivity|reflexivity|exact Y|exact Z|exact Z']. }
    1:{ destruct (udp_copy_holds chunk n u net i q Hh) as (u' & net' & X & Y & Z & Z'). rewrite X in G.
      cbn [c_in c_set_in eof_env ce_end] in G.
      destruct (fl_copy n i EndEOF) as [r0 i']. eapply G; [reflexivity|reflexivity|exact Y|exact Z|exact Z']. }
    all: eapply G; [reflexivity|reflexivity|exact Hh|exact R0|reflexivity].
Qed.

Lemma upath_local {B} (F : cprog B -> cprog A) {R} (e : ceff R) kk cx s m k ca :
  (forall R (e : ceff R) k, F (CDo e k) = CDo e (fun r => F (k r))) -> local e = true ->
  path {| w_cl := F (CDo e kk); w_cx := cx; w_cs := s; w_mode := m; w_k := k; w_calls := ca |} 1 []
       {| w_cl := F (kk (fst (cexec C CE e s))); w_cx := cx; w_cs := snd (cexec C CE e s); w_mode := m; w_k := k; w_calls := ca |}.
Proof.
  intros HF Hl. eapply path_l; [|apply path_nil]. unfold ugo_c. cbn [w_cl w_cx w_cs w_mode w_k w_calls]. rewrite HF, Hl. reflexivity.
Qed.

(** The socket after a Write. *)
Definition wrote (q : bytes) (x : udpc * unet) : udpc * unet :=
  (u_set_read (fst x) false,
   {| n_in := n_in (snd x); n_out := n_out (snd x) ++ [(None, q)]; n_step := S (n_step (snd x)); n_closed := n_closed (snd x) |}).

Lemma upath_write {B} (F : cprog B -> cprog A) q kk u net s m k ca :
  (forall R (e : ceff R) k, F (CDo e k) = CDo e (fun r => F (k r))) -> udp_client u -> n_closed net = false -> n_in net = [] ->
  fits q = true -> waits (F (kk (lenN q, false))) (c_add_sent (c_tick s) q (lenN q)) = true ->
  path {| w_cl := F (CDo (CWrite q) kk); w_cx := (u, net); w_cs := s; w_mode := UIdle m; w_k := k; w_calls := ca |} 1 []
       {| w_cl := F (kk (lenN q, false)); w_cx := wrote q (u, net); w_cs := c_add_sent (c_tick s) q (lenN q); w_mode := UQueued m q;
          w_k := k; w_calls := ca |}.
Proof.
  intros HF [Hu1 Hu2] Hc Hi Hfit Hwait. eapply path_l; [|apply path_nil]. unfold ugo_c. cbn [w_cl w_cx w_cs w_mode w_k w_calls].
  rewrite HF. cbn [local is_read is_write negb andb ucexec]. unfold udp_write, net_send. rewrite Hu1, Hc, Hfit. cbn [negb andb].
  unfold left_socket. cbn [snd n_out]. rewrite skipn_app_exact. cbn [map snd fst u_set_read u_read n_in]. rewrite Hi, Hwait.
  unfold wrote. cbn [fst snd]. rewrite Hi, Hc. reflexivity.
Qed.
End UDuo.
