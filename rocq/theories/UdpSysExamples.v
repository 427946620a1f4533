(** A client that exchanges two messages over UDP while another client of the
    same host uses the server. *)
From Coq Require Import Strings.String.
From Verif Require Import Bytes BytesProofs Parser Crypto Kdf Wire WireSeq Toy Replay SpecReplay Server ServerSeq SpecServer ServerProps
  ServerExamples MultiConn SpecMulti MultiExamples Keys Client ClientSeq SpecClient SpecE2E ClientExamples System SpecSystem SystemExamples
  Udp SpecUdp UdpSystem SpecUdpSystem.

Definition dgr_me : bytes := str "10.0.0.1:5000".
Definition dgr_peer : bytes := str "10.0.0.1:5001".
Definition dgr_far : bytes := str "20.0.0.1:5000".
Definition dgr_srv : bytes := str "10.0.0.9:53".
(** All from one host, or everybody else from another. *)
Definition dgr_host (all : bool) (a : bytes) : option bytes := Some (if all || bytes_eqb a dgr_me then ex_host else ex_host2).
Definition dgr_chunk (i : nat) : N := 512.

Definition setup2 : bytes := enc_request (RqSetup ex_id2 (x_pub toy ex_csk)).
Definition process2 : bytes := enc_request (RqProcess ex_id2 1 (gcm_seal toy ex_key (gcm_nonce dir_c2s 1) [x42]) true).

Notation dgr_move all := (usys_move toy ex_CE (fun _ => ex_SE) (dgr_host all) dgr_chunk dgr_me dgr_srv).
Notation dgr_run all := (usys_run toy ex_CE (fun _ => ex_SE) (dgr_host all) dgr_chunk dgr_me dgr_srv).

Fixpoint first_able {A} (all : bool) (l : list umove) (x : usys A) : list umove :=
  match l with
  | [] => []
  | v :: l => if able (dgr_move all x v) then [v] else first_able all l x
  end.
(** One move for the other client, if there is one, then one for the client. The
    other client's second datagram arrives in the middle. *)
Fixpoint ugreedy {A} (all : bool) (other : bytes) (fuel : nat) (x : usys A) : list umove :=
  match fuel with
  | O => []
  | S fuel =>
      let l1 := (if Nat.eqb fuel 60 then [UArrive other process2; UCollect ex_name] else []) ++
                first_able all [UStep 1; UAnswer 1; UStep 3; UAnswer 3] x in
      match dgr_run all l1 x with
      | Some y =>
          let k := (2 * Nat.pred (v_mine y))%nat in
          let l2 := first_able all [UStep k; UAnswer k; UReceive; UClient] y in
          match dgr_run all l2 y with
          | Some z => l1 ++ l2 ++ ugreedy all other fuel z
          | None => []
          end
      | None => []
      end
  end.
Definition dgr_start (other : bytes) : usys (hs_error + list rd_result) :=
  udialling toy [(other, setup2)] ex_mem (talk toy ex_opts (Some ex_name) 100 sys_ps).
Definition sched_peer : list umove := Eval vm_compute in ugreedy true dgr_peer 120 (dgr_start dgr_peer).
Definition uoutcome {A} (x : option (usys A)) : option (option A * list (N * bool * bytes) * list (N * bool * bytes) * nat * nat) :=
  match x with
  | Some x => Some (match v_cl x with CRet a => Some a | _ => None end, ucalls x,
                    seen (c_calls (t_conn (v_srv x) 3)), v_mine x, v_others x)
  | None => None
  end.

Definition sched_far : list umove := Eval vm_compute in ugreedy false dgr_far 120 (dgr_start dgr_far).

Fixpoint usparesb {A} (key : bytes) (sched : list umove) (x : usys A) : bool :=
  match sched with
  | [] => true
  | v :: l =>
      match v with
      | UStep j => Nat.even j || match next_key (c_prog (t_conn (v_srv x) j)) with Some k => negb (bytes_eqb k key) | None => true end
      | UCollect k => negb (bytes_eqb k key)
      | _ => true
      end &&
      match dgr_move true x v with Some y => usparesb key l y | None => true end
  end.
Lemma usparesb_uspares {A} key l : forall x : usys A, usparesb key l x = true ->
  uspares toy ex_CE (fun _ => ex_SE) (dgr_host true) dgr_chunk dgr_me dgr_srv key l x.
Proof.
  induction l as [|v l IH]; intros x H; [exact I|]. cbn [usparesb] in H. apply andb_prop in H. destruct H as [H1 H2]. cbn [uspares]. split.
  - destruct v as [| |j|j|a d|k]; cbn [uspares1]; try exact I.
    + intros Hj Hk. rewrite Hj, Hk, bytes_eqb_refl in H1. discriminate.
    + intros ->. rewrite bytes_eqb_refl in H1. discriminate.
  - destruct (dgr_move true x v); [apply IH, H2|exact I].
Qed.

Lemma peer_run :
  usparesb sys_key sched_peer (dgr_start dgr_peer) = true /\
  uoutcome (dgr_run true sched_peer (dgr_start dgr_peer)) =
    Some (Some (inr [RdOk [x41; x21] true; RdOk [x42; x43; x21] true]), [(1, true, [x41]); (2, true, [x42; x43])],
          [(1, true, [x42])], 3%nat, 2%nat).
Proof. vm_compute. auto. Qed.
Lemma far_run :
  uoutcome (dgr_run false sched_far (dgr_start dgr_far)) =
    Some (Some (inr [RdOk [x41; x21] true; RdOk [x42; x43; x21] true]), [(1, true, [x41]); (2, true, [x42; x43])],
          [(1, true, [x42])], 3%nat, 2%nat).
Proof. vm_compute. auto. Qed.

Lemma dgr_undisturbed all : undisturbed toy ex_CE (dgram_env ex_SE (dgr_host all dgr_me)) ex_host ex_name ex_csk ex_rnd ex_sign_key.
Proof.
  destruct ex_undisturbed as [U1 U2 U3 U4 U5 U6 U7 U8 U9 U10]. split; try assumption.
  destruct all; vm_compute; reflexivity.
Qed.
Lemma dgr_wf : wf (join ex_mem (fresh_conn toy false [])).
Proof. split; [discriminate|discriminate|]. intros p. exists []. split; [constructor|reflexivity]. Qed.
Lemma dgr_sig i d sig : e_sign ex_SE i SHA512 d = KOk sig -> lenN sig + 54 <= 65507.
Proof.
  intros H. cbn [e_sign ex_SE] in H. unfold sign in H. cbn -[be_enc be_dec app] in H.
  assert (J : forall a b : bytes, KOk a = KOk b -> a = b) by congruence. apply J in H. subst sig. rewrite lenN_app. unfold pad32. rewrite !be_enc_lenN. discriminate.
Qed.
Lemma peer_hyps :
  (forall k : nat, undisturbed toy ex_CE (dgram_env ex_SE (dgr_host true dgr_me)) ex_host ex_name ex_csk ex_rnd ex_sign_key) /\
  (forall i d sig, e_sign ex_SE i SHA512 d = KOk sig -> lenN sig + 54 <= 65507) /\
  co_reply ex_opts = true /\ Forall (fun q => fst q <> dgr_me) [(dgr_peer, setup2)] /\ wf (join ex_mem (fresh_conn toy false [])) /\
  lenN sys_ps < 2 ^ 64 /\ Forall (fun p => lenN p + 50 <= 65507) sys_ps /\
  (forall i p, In p sys_ps -> e_handler ex_SE i true p = HOk (sys_f p)) /\
  Forall (fun p => sys_f p <> [] /\ lenN (sys_f p) + 33 <= 65507 /\ lenN (sys_f p) <= 100) sys_ps.
Proof.
  split; [intros _; apply dgr_undisturbed|]. split; [exact dgr_sig|]. split; [reflexivity|].
  split; [repeat constructor; discriminate|]. split; [exact dgr_wf|]. split; [vm_compute; reflexivity|].
  split; [repeat constructor; vm_compute; discriminate|]. split; [reflexivity|].
  repeat constructor; vm_compute; discriminate.
Qed.
Lemma far_hosts a hst id : a <> dgr_me -> dgr_host false a = Some hst -> lenN id = 16 -> session_key toy hst id <> sys_key.
Proof.
  intros Ha Hh Hid. unfold dgr_host in Hh. destruct (bytes_eqb_spec a dgr_me); [contradiction|]. injection Hh as <-.
  apply (hosts_differ 1); [discriminate|reflexivity|exact Hid].
Qed.
Lemma far_collects k : In (UCollect k) sched_far -> k <> sys_key.
Proof.
  intros H ->. assert (existsb (fun v => match v with UCollect k => bytes_eqb k sys_key | _ => false end) sched_far = false) as E
    by (vm_compute; reflexivity).
  apply Bool.not_true_iff_false in E. apply E. apply existsb_exists. eexists. split; [exact H|]. cbn. apply bytes_eqb_refl.
Qed.
