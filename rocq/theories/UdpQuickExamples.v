(** The quick start over UDP while another client of the host uses the server. *)
From Coq Require Import Strings.String.
From Verif Require Import Bytes BytesProofs Crypto Wire Toy Server ServerSeq SpecServer ServerExamples MultiConn SpecMulti
  MultiExamples Keys Client ClientSeq SpecClient SpecE2E ClientExamples System SpecSystem SystemExamples Usage QuickStart QuickExamples
  Udp SpecUdp UdpSystem SpecUdpSystem UdpSysExamples.

Definition uq_fetch : usys (fk_error + pubkey) := udialling toy [(dgr_peer, setup2)] ex_mem (fetch_protocol toy).
Definition uq_talk : usys (hs_error + list (option (bytes * option rd_error))) :=
  udialling toy [(dgr_peer, setup2)] ex_mem (quick toy ex_opts ex_name qs_size 100 sys_ps).
Definition sched_ufetch : list umove := Eval vm_compute in ugreedy true dgr_peer 62 uq_fetch.
Definition sched_uquick : list umove := Eval vm_compute in ugreedy true dgr_peer 120 uq_talk.
Notation uq_move := (usys_move toy qs_CE (fun _ => ex_SE) (dgr_host true) dgr_chunk dgr_me dgr_srv).
Notation uq_run := (usys_run toy qs_CE (fun _ => ex_SE) (dgr_host true) dgr_chunk dgr_me dgr_srv).

Fixpoint usparesq {A} (key : bytes) (sched : list umove) (x : usys A) : bool :=
  match sched with
  | [] => true
  | v :: l =>
      match v with
      | UStep j => Nat.even j || match next_key (c_prog (t_conn (v_srv x) j)) with Some k => negb (bytes_eqb k key) | None => true end
      | UCollect k => negb (bytes_eqb k key)
      | _ => true
      end &&
      match uq_move x v with Some y => usparesq key l y | None => true end
  end.
Lemma usparesq_uspares {A} key l : forall x : usys A, usparesq key l x = true ->
  uspares toy qs_CE (fun _ => ex_SE) (dgr_host true) dgr_chunk dgr_me dgr_srv key l x.
Proof.
  induction l as [|v l IH]; intros x H; [exact I|]. cbn [usparesq] in H. apply andb_prop in H. destruct H as [H1 H2]. cbn [uspares]. split.
  - destruct v as [| |j|j|a d|k]; cbn [uspares1]; try exact I.
    + intros Hj Hk. rewrite Hj, Hk, bytes_eqb_refl in H1. discriminate.
    + intros ->. rewrite bytes_eqb_refl in H1. discriminate.
  - destruct (uq_move x v); [apply IH, H2|exact I].
Qed.

Lemma uq_fetch_run : uoutcome (dgr_run true sched_ufetch uq_fetch) = Some (Some (inr qs_pk), [], [(1, true, [x42])], 1%nat, 2%nat).
Proof. vm_compute. auto. Qed.
Lemma uq_talk_run :
  usparesq sys_key sched_uquick uq_talk = true /\
  uoutcome (uq_run sched_uquick uq_talk) =
    Some (Some (inr [Some ([x41; x21], None); Some ([x42; x43; x21], None)]), [(1, true, [x41]); (2, true, [x42; x43])],
          [(1, true, [x42])], 3%nat, 2%nat).
Proof. vm_compute. auto. Qed.
Lemma uq_undisturbed (k : nat) : undisturbed toy qs_CE (dgram_env ex_SE (dgr_host true dgr_me)) ex_host ex_name ex_csk ex_rnd ex_sign_key.
Proof. destruct (dgr_undisturbed true) as [U1 U2 U3 U4 U5 U6 U7 U8 U9 U10]. split; try assumption. Qed.
Lemma uq_fetches i : e_fetch ex_SE i = fetch_key toy ex_sign_key.
Proof. vm_compute. reflexivity. Qed.
