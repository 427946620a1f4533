(** Property C167: several goroutines write to one client. *)
From Verif Require Import Bytes Crypto Toy Wire Replay SpecReplay Server ServerSeq SpecServer MultiConn SpecMulti ServerExamples Keys SystemExamples
  Client ClientSeq SpecClient SpecE2E ClientExamples SpecUdpDup Duplex SpecDuplex Writers SpecWriters WritersProofs WritersExamples.

(** C167. Wanted: when several goroutines write to one client over TCP, every
    message whose Write succeeded reaches the handler. It is not so: between taking
    its counter and sending, a goroutine may be overtaken by any 64 messages [qs] of
    another, and then the server refuses its message [p]. *)
Theorem C167_all_handled_refuted : forall C CE SE o ses chost hist cs ss p qs, CryptoLaws C -> c_works CE -> writes_all SE ->
  (forall i m, e_handler SE i (co_reply o) m <> HPanic) -> (forall i, e_quit SE i = false) -> e_host SE = Some chost ->
  paired C ses chost hist cs ss -> Forall (fun c => c <= c_ctr cs) hist -> c_ctr cs + 65 < 2 ^ 64 ->
  length qs = 64%nat -> Forall (fun p => lenN p + 16 <= 2 ^ 30) (p :: qs) ->
  exists sched y, w_run C CE sched (several C o ses [[p]; qs] cs) = Some y /\
    w_progs y = map (fun ps => CRet (map (fun p => WrConn (lenN p + 50) false) ps)) [[p]; qs] /\
    let '(fate, ss') := serve_conn C SE (set_in ss (sent_by_client cs (w_cs y))) in
    fate = Closed /\ map snd (seen (s_calls ss')) = map snd (seen (s_calls ss)) ++ qs.
Proof. exact writers_overtaken. Qed.
Print Assumptions C167_all_handled_refuted.
Example C167_overtaken_example : CryptoLaws toy /\ c_works ex_CE /\ writes_all ex_SE /\ (forall i m, e_handler ex_SE i (co_reply sys_quiet) m <> HPanic) /\
  (forall i, e_quit ex_SE i = false) /\ e_host ex_SE = Some ex_host /\ paired toy ex_ses ex_host [] (cst0 []) ex_ss /\
  co_reply sys_quiet = false /\ length (repeat [x42] 64) = 64%nat /\ Forall (fun p => lenN p + 16 <= 2 ^ 30) ([x41] :: repeat [x42] 64).
Proof. exact overtaken_example. Qed.

(** However the goroutines take turns, all Writes come to an end and succeed, what
    reaches the server are whole requests with different counters, those of each
    goroutine in the order of its messages, and the handler gets those that a replay
    filter of 64 counters accepts: none altered, none twice, none that nobody wrote. *)
Theorem C167_handled_partial : forall C CE SE o ses chost pss hist cs ss, CryptoLaws C -> c_works CE -> writes_all SE ->
  (forall i m, e_handler SE i (co_reply o) m <> HPanic) -> (forall i, e_quit SE i = false) -> e_host SE = Some chost ->
  paired C ses chost hist cs ss -> c_ctr cs + total pss < 2 ^ 64 ->
  (forall ps p, In ps pss -> In p ps -> lenN p + 16 <= 2 ^ 30) ->
  let x := several C o ses pss cs in
  always_ends (w_move C CE) x /\
  forall sched y, w_run C CE sched x = Some y ->
    (exists i, w_move C CE y i <> None) \/
    w_progs y = map (fun ps => CRet (map (fun p => WrConn (lenN p + 50) false) ps)) pss /\
    exists log, interleaves pss log /\ NoDup (map log_ctr log) /\
      Forall (fun e => c_ctr cs < log_ctr e <= c_ctr cs + total pss) log /\
      let '(fate, ss') := serve_conn C SE (set_in ss (sent_by_client cs (w_cs y))) in
      fate = Closed /\
      exists before rs final, length before = length hist /\ filter_run 64 [] (hist ++ map log_ctr log) (before ++ rs) final /\
        seen (s_calls ss') = seen (s_calls ss) ++ map (fun e => (log_ctr e, co_reply o, log_msg e)) (kept log rs).
Proof. exact writers_end. Qed.
Print Assumptions C167_handled_partial.

(** If they write no more than 64 messages in all, the handler gets every one,
    those of each goroutine in their order. *)
Theorem C167_few_partial : forall C CE SE o ses chost pss hist cs ss, CryptoLaws C -> c_works CE -> writes_all SE ->
  (forall i m, e_handler SE i (co_reply o) m <> HPanic) -> (forall i, e_quit SE i = false) -> e_host SE = Some chost ->
  paired C ses chost hist cs ss -> Forall (fun c => c <= c_ctr cs) hist -> c_ctr cs + total pss < 2 ^ 64 -> total pss <= 64 ->
  (forall ps p, In ps pss -> In p ps -> lenN p + 16 <= 2 ^ 30) ->
  forall sched y, w_run C CE sched (several C o ses pss cs) = Some y ->
    (exists i, w_move C CE y i <> None) \/
    exists log, interleaves pss log /\
      seen (s_calls (snd (serve_conn C SE (set_in ss (sent_by_client cs (w_cs y)))))) =
      seen (s_calls ss) ++ map (fun e => (log_ctr e, co_reply o, log_msg e)) log.
Proof. exact writers_all. Qed.
Print Assumptions C167_few_partial.
Example C167_example : paired toy ex_ses ex_host [] (cst0 []) ex_ss /\ total turns_pss = 3 /\ interleaves turns_pss turns_log /\
  exists y, w_run toy ex_CE turns_sched (several toy ex_opts ex_ses turns_pss (cst0 [])) = Some y /\
    (forall i, w_move toy ex_CE y i = None) /\
    seen (s_calls (snd (serve_conn toy ex_SE (set_in ex_ss (sent_by_client (cst0 []) (w_cs y)))))) =
    map (fun e => (log_ctr e, true, log_msg e)) turns_log.
Proof. exact turns_example. Qed.
