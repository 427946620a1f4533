(** The quick start while another client of the host uses the server. *)
From Coq Require Import Strings.String.
From Verif Require Import Bytes BytesProofs Crypto Wire Toy Server ServerSeq SpecServer ServerExamples MultiConn SpecMulti
  MultiExamples Keys Client ClientSeq SpecClient SpecE2E ClientExamples System SpecSystem SystemExamples Usage QuickStart.

Definition qs_pk : pubkey := PkEd25519 (ed_pub toy [x07]).
Definition qs_raw : bytes := Eval vm_compute in x01 :: ed_pub toy [x07].
Definition qs_CE : cenv := knowing ex_CE qs_pk.
Definition qs_size (_ : nat) : N := 1.

(** The schedules are those a client with [ex_CE] would take; [knowing] changes
    only where the key comes from. *)
Definition qs_fetch : sys (fk_error + pubkey) := dialling toy (fun _ => true) (fun _ => []) ex_mem 0 (fetch_protocol toy).
Definition qs_talk : sys (hs_error + list (option (bytes * option rd_error))) :=
  dialling toy (fun _ => true) (fun _ => []) ex_mem 0 (quick toy ex_opts ex_name qs_size 100 sys_ps).
Definition sched_fetch : list move := Eval vm_compute in greedy 2 1 100 qs_fetch.
Definition sched_quick : list move := Eval vm_compute in greedy 2 1 101 qs_talk.

Fixpoint sparesq {A} (key : bytes) (sched : list move) (x : sys A) : bool :=
  match sched with
  | [] => true
  | v :: l =>
      match v with
      | MOther j => match next_key (c_prog (t_conn (y_srv x) j)) with Some k => negb (bytes_eqb k key) | None => true end
      | MCollect k => negb (bytes_eqb k key)
      | _ => true
      end &&
      match sys_move toy qs_CE (sys_E 2) (fun _ => true) 0 x v with Some y => sparesq key l y | None => true end
  end.
Lemma sparesq_spares {A} key l : forall x : sys A, sparesq key l x = true -> spares toy qs_CE (sys_E 2) (fun _ => true) 0 key l x.
Proof.
  induction l as [|v l IH]; intros x H; [exact I|]. cbn [sparesq] in H. apply andb_prop in H. destruct H as [H1 H2]. cbn [spares]. split.
  - destruct v as [| |j|j b|k]; cbn; try exact I.
    + intros Hk. rewrite Hk, bytes_eqb_refl in H1. discriminate.
    + intros ->. rewrite bytes_eqb_refl in H1. discriminate.
  - destruct (sys_move _ _ _ _ _ x v); [apply IH, H2|exact I].
Qed.

Lemma qs_key : fetch_key toy ex_sign_key = KOk (3, qs_pk) /\ pkix_marshal toy qs_pk = Some qs_raw /\ pkix_parse toy qs_raw = Some qs_pk /\
  lenN qs_raw <= 2 ^ 16.
Proof. vm_compute. repeat split; discriminate. Qed.
Lemma qs_fetch_run :
  outcome (sys_run toy ex_CE (sys_E 2) (fun _ => true) 0 sched_fetch qs_fetch) = Some (Some (inr qs_pk), [], []).
Proof. vm_compute. auto. Qed.
Lemma qs_talk_run :
  sparesq sys_key sched_quick qs_talk = true /\
  outcome (sys_run toy qs_CE (sys_E 2) (fun _ => true) 0 sched_quick qs_talk) =
    Some (Some (inr [Some ([x41; x21], None); Some ([x42; x43; x21], None)]), [(1, true, [x41]); (2, true, [x42; x43])], [(1, true, [x42])]).
Proof. vm_compute. auto. Qed.
Lemma qs_undisturbed : undisturbed toy qs_CE (sys_E 2 0) ex_host ex_name ex_csk ex_rnd ex_sign_key.
Proof.
  destruct (sys_undisturbed 2 ltac:(repeat constructor)) as [U1 U2 U3 U4 U5 U6 U7 U8 U9 U10].
  split; try assumption.
Qed.
