(** A client that exchanges two messages while another client of the same host,
    and one of another host, use the server. *)
From Coq Require Import Strings.String.
From Verif Require Import Bytes BytesProofs Parser Crypto Kdf Wire WireSeq Toy Replay SpecReplay Server ServerSeq SpecServer ServerProps
  ServerExamples MultiConn SpecMulti MultiExamples Keys Client ClientSeq SpecClient SpecE2E ClientExamples System SpecSystem.

(** The first [k] connections come from one host, the others from another. *)
Definition sys_E (k j : nat) : senv := {|
  e_host := Some (if (j <? k)%nat then ex_host else ex_host2); e_end := e_end ex_SE; e_write := e_write ex_SE;
  e_gen := e_gen ex_SE; e_store := e_store ex_SE; e_handler := e_handler ex_SE; e_sign := e_sign ex_SE;
  e_fetch := e_fetch ex_SE; e_quit := e_quit ex_SE |}.
Definition sys_key : bytes := session_key toy ex_host (uuid_of ex_rnd).
Definition sys_quiet : copts := {| co_rto := false; co_wto := true; co_reply := false |}.
Definition sys_ps : list bytes := [[x41]; [x42; x43]].
Definition sys_f (p : bytes) : bytes := p ++ [x21].

Definition able {A} (x : option A) : bool := match x with Some _ => true | None => false end.
(** The client's connection goes first, then the client; connection [other] moves
    in between, after its octets arrived, and an entry nobody uses is collected. *)
Fixpoint greedy {A} (k other : nat) (fuel : nat) (x : sys A) : list move :=
  match fuel with
  | O => []
  | S fuel =>
      let v := if able (sys_move toy ex_CE (sys_E k) (fun _ => true) 0 x MServe) then MServe else MClient in
      let l := (if Nat.eqb fuel 99 then [MArrive other (ex_input 1)] else []) ++ [MOther other; v] ++
               (if Nat.eqb fuel 90 then [MCollect ex_name] else []) in
      match sys_run toy ex_CE (sys_E k) (fun _ => true) 0 l x with
      | Some y => l ++ greedy k other fuel y
      | None => []
      end
  end.
Definition sys_start (o : copts) : sys (hs_error + list rd_result) :=
  dialling toy (fun _ => true) (fun _ => []) ex_mem 0 (talk toy o (Some ex_name) 100 sys_ps).

Definition sched_reply : list move := Eval vm_compute in greedy 2 1 100 (sys_start ex_opts).
Definition sched_quiet : list move := Eval vm_compute in greedy 1 2 100 (sys_start sys_quiet).

Fixpoint sparesb {A} (key : bytes) (sched : list move) (x : sys A) : bool :=
  match sched with
  | [] => true
  | v :: l =>
      match v with
      | MOther j => match next_key (c_prog (t_conn (y_srv x) j)) with Some k => negb (bytes_eqb k key) | None => true end
      | MCollect k => negb (bytes_eqb k key)
      | _ => true
      end &&
      match sys_move toy ex_CE (sys_E 2) (fun _ => true) 0 x v with Some y => sparesb key l y | None => true end
  end.
Lemma sparesb_spares {A} key l : forall x : sys A, sparesb key l x = true -> spares toy ex_CE (sys_E 2) (fun _ => true) 0 key l x.
Proof.
  induction l as [|v l IH]; intros x H; [exact I|]. cbn [sparesb] in H. apply andb_prop in H. destruct H as [H1 H2]. cbn [spares]. split.
  - destruct v as [| |j|j b|k]; cbn; try exact I.
    + intros Hk. rewrite Hk, bytes_eqb_refl in H1. discriminate.
    + intros ->. rewrite bytes_eqb_refl in H1. discriminate.
  - destruct (sys_move _ _ _ _ _ x v); [apply IH, H2|exact I].
Qed.

Lemma sys_undisturbed k : (0 < k)%nat -> undisturbed toy ex_CE (sys_E k 0) ex_host ex_name ex_csk ex_rnd ex_sign_key.
Proof.
  intros Hk. destruct ex_undisturbed as [U1 U2 U3 U4 U5 U6 U7 U8 U9 U10]. split; try assumption.
  cbn. destruct k; [lia|reflexivity].
Qed.
Lemma sys_wf : wf (join ex_mem (fresh_conn toy true [])).
Proof.
  split; [discriminate|discriminate|]. intros p. exists []. split; [constructor|reflexivity].
Qed.

Definition outcome {A} (x : option (sys A)) : option (option A * list (N * bool * bytes) * list (N * bool * bytes)) :=
  match x with
  | Some x => Some (match y_cl x with CRet a => Some a | _ => None end, seen (c_calls (t_conn (y_srv x) 0)),
                    seen (c_calls (t_conn (y_srv x) 1)))
  | None => None
  end.

Lemma reply_run :
  sparesb sys_key sched_reply (sys_start ex_opts) = true /\
  outcome (sys_run toy ex_CE (sys_E 2) (fun _ => true) 0 sched_reply (sys_start ex_opts)) =
    Some (Some (inr [RdOk [x41; x21] true; RdOk [x42; x43; x21] true]), [(1, true, [x41]); (2, true, [x42; x43])], [(1, true, [x42])]).
Proof. vm_compute. auto. Qed.
Lemma quiet_run :
  outcome (sys_run toy ex_CE (sys_E 1) (fun _ => true) 0 sched_quiet (sys_start sys_quiet)) =
    Some (Some (inr []), [(1, false, [x41]); (2, false, [x42; x43])], []).
Proof. vm_compute. auto. Qed.

Lemma hosts_differ j hst id : j <> 0%nat -> e_host (sys_E 1 j) = Some hst -> lenN id = 16 -> session_key toy hst id <> sys_key.
Proof.
  intros Hj Hh Hid E. cbn [e_host sys_E] in Hh. destruct j as [|j]; [contradiction|]. cbn in Hh. injection Hh as <-.
  apply (f_equal ex_K2) in E. rewrite toy_key in E by (reflexivity || exact Hid).
  assert (ex_K2 sys_key = true) as E2 by (vm_compute; reflexivity). rewrite E2 in E. discriminate E.
Qed.

Lemma quiet_collects k : In (MCollect k) sched_quiet -> k <> sys_key.
Proof.
  intros H ->. assert (existsb (fun v => match v with MCollect k => bytes_eqb k sys_key | _ => false end) sched_quiet = false) as E
    by (vm_compute; reflexivity).
  apply Bool.not_true_iff_false in E. apply E. apply existsb_exists. eexists. split; [exact H|]. cbn. apply bytes_eqb_refl.
Qed.

Lemma reply_hyps :
  undisturbed toy ex_CE (sys_E 2 0) ex_host ex_name ex_csk ex_rnd ex_sign_key /\ wf (join ex_mem (fresh_conn toy true [])) /\
  lenN sys_ps < 2 ^ 64 /\ Forall (fun p => lenN p + 16 <= 2 ^ 30) sys_ps /\
  (forall i p, In p sys_ps -> e_handler (sys_E 2 0) i true p = HOk (sys_f p)) /\
  Forall (fun p => sys_f p <> [] /\ lenN (sys_f p) + 16 <= 2 ^ 30 /\ lenN (sys_f p) <= 100) sys_ps.
Proof.
  split; [apply sys_undisturbed; lia|]. split; [exact sys_wf|]. split; [vm_compute; reflexivity|].
  split; [repeat constructor; vm_compute; discriminate|]. split; [reflexivity|].
  repeat constructor; vm_compute; discriminate.
Qed.
