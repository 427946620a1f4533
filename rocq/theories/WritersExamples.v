(** Several goroutines write to one client: examples. *)
From Verif Require Import Bytes BytesProofs Parser Crypto Toy Wire WireSeq Replay SpecReplay Server ServerSeq SpecServer MultiConn SpecMulti
  ServerExamples Keys System SpecSystem SystemExamples Client ClientSeq SpecClient SpecE2E ClientExamples LongExamples SpecUdpDup Duplex SpecDuplex
  Writers SpecWriters WritersProofs.

(** What the refutation asks for. *)
Lemma overtaken_example : CryptoLaws toy /\ c_works ex_CE /\ writes_all ex_SE /\ (forall i m, e_handler ex_SE i (co_reply sys_quiet) m <> HPanic) /\
  (forall i, e_quit ex_SE i = false) /\ e_host ex_SE = Some ex_host /\ paired toy ex_ses ex_host [] (cst0 []) ex_ss /\
  co_reply sys_quiet = false /\ length (repeat [x42] 64) = 64%nat /\ Forall (fun p => lenN p + 16 <= 2 ^ 30) ([x41] :: repeat [x42] 64).
Proof.
  split; [exact toy_laws|]. split; [exact ex_c_works|]. split; [intros i b; split; [apply N.le_refl|reflexivity]|]. split; [discriminate|].
  split; [reflexivity|]. split; [reflexivity|]. split; [exact (proj1 long_reply_example)|]. split; [reflexivity|]. split; [reflexivity|].
  apply Forall_forall. intros p [<-|H]; [|apply repeat_spec in H; subst p]; discriminate.
Qed.

(** Two goroutines in turns; the counters arrive out of order. *)
Definition turns_pss : list (list bytes) := [[[x41]; [x43]]; [[x42]]].
Definition turns_sched : list nat := [0; 0; 1; 1; 1; 1; 1; 0; 0; 0; 0; 0; 0; 0; 0]%nat.
Definition turns_log : sent_log := [(1%nat, (2, [x42])); (0%nat, (1, [x41])); (0%nat, (3, [x43]))].
Lemma turns_example : paired toy ex_ses ex_host [] (cst0 []) ex_ss /\ total turns_pss = 3 /\ interleaves turns_pss turns_log /\
  exists y, w_run toy ex_CE turns_sched (several toy ex_opts ex_ses turns_pss (cst0 [])) = Some y /\
    (forall i, w_move toy ex_CE y i = None) /\
    seen (s_calls (snd (serve_conn toy ex_SE (set_in ex_ss (sent_by_client (cst0 []) (w_cs y)))))) =
    map (fun e => (log_ctr e, true, log_msg e)) turns_log.
Proof.
  split; [exact (proj1 long_reply_example)|]. split; [reflexivity|]. split.
  { intros [|[|i]]; [reflexivity|reflexivity|]. destruct i; reflexivity. }
  assert (B : match w_run toy ex_CE turns_sched (several toy ex_opts ex_ses turns_pss (cst0 [])) with
    | Some y => w_progs y = [CRet [WrConn 51 false; WrConn 51 false]; CRet [WrConn 51 false]] /\
        seen (s_calls (snd (serve_conn toy ex_SE (set_in ex_ss (sent_by_client (cst0 []) (w_cs y)))))) =
        map (fun e => (log_ctr e, true, log_msg e)) turns_log
    | None => False end) by (vm_compute; split; reflexivity).
  destruct (w_run toy ex_CE turns_sched _) as [y|]; [|destruct B]. destruct B as [P Q]. exists y. split; [reflexivity|]. split; [|exact Q].
  intros i. unfold w_move. rewrite P. destruct i as [|[|[|i]]]; reflexivity.
Qed.
