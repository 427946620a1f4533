(** C165: clients that share a session, as those of a pool do. *)
From Coq Require Import Strings.String.
From Verif Require Import Bytes Parser Crypto Kdf Wire WireSeq Toy Replay SpecReplay Server ServerSeq SpecServer ServerExamples MultiConn
  SpecMulti MultiExamples Keys Client ClientSeq SpecClient SpecE2E ClientExamples System SpecSystem SystemExamples Team SpecTeam
  TeamProofs TeamExamples.

(** C165. Any number of clients share a session and exchange messages with the
    server, each on a connection of its own, all steps in any order and among any
    other connections. None of them panics or waits for ever: after a number of
    steps that depends on nothing but the messages all have ended. Every message
    was then given to the handler once, in the order of its client, and its reply
    returned to that client - or it was refused as a replay, the handler never
    saw it and the client was told so. *)
Theorem C165_any_order : forall C CE E tcp T inputs m chost ses hist c0 q o n f ps, CryptoLaws C ->
  (forall i, (i < T)%nat -> c_works (CE i) /\ writes_all (E i) /\ (forall k, e_quit (E i) k = false) /\
     e_host (E i) = Some chost /\ tcp i = true) ->
  length (cs_id ses) = 16%nat -> sane m -> m_map m (session_key C chost (cs_id ses)) = Some q ->
  m_heap m q = {| ses_secret := cs_secret ses; ses_win := snd (checks new_window hist) |} ->
  Forall (fun c => c <= c0) hist -> c0 + N.of_nat (total ps T) < 2 ^ 64 ->
  (forall i, (i < T)%nat -> Forall (fun p => lenN p + 16 <= 2 ^ 30) (ps i)) ->
  (forall i k p, (i < T)%nat -> In p (ps i) -> e_handler (E i) k (co_reply o) p = HOk (f p)) ->
  (forall i, (i < T)%nat -> co_reply o = true ->
     Forall (fun p => f p <> [] /\ lenN (f p) + 16 <= 2 ^ 30 /\ lenN (f p) <= n) (ps i)) ->
  let key := session_key C chost (cs_id ses) in
  let start := teaming C tcp inputs m T c0 (fun i => exchange C o ses n (ps i)) in
  exists N, forall sched x,
    team_spares C CE E tcp T key sched start -> team_run C CE E tcp T sched start = Some x ->
    (team_moves sched <= N)%nat /\
    forall i, (i < T)%nat -> exists ok later, length ok = length (ps i) /\
      marked (ps i) ok = given (t_conn (z_srv x) i) ++ later /\
      (forall a, z_cl x i = CRet a -> a = team_result o f (ps i) ok) /\ z_cl x i <> CPanic /\
      (team_rests C CE E tcp T x -> z_cl x i = CRet (team_result o f (ps i) ok) /\ later = []).
Proof. exact team_any_order. Qed.
Print Assumptions C165_any_order.
(** One of 65 clients is overtaken by the 64 others: its message is refused. *)
Example C165_overtaken_example :
  late_out (late_run late_sched late_start) =
    Some (Some [RdErr (RdRemote 5 (str "message counter was already seen or is too old"%string))], [], [[x41]], 68).
Proof. exact late_run_out. Qed.

(** Nothing is refused if every message comes to the replay filter before 64
    further counters are given out: all replies arrive, each at its client and in
    order. *)
Theorem C165_timely : forall C CE E tcp T inputs m chost ses hist c0 q o n f ps, CryptoLaws C ->
  (forall i, (i < T)%nat -> c_works (CE i) /\ writes_all (E i) /\ (forall k, e_quit (E i) k = false) /\
     e_host (E i) = Some chost /\ tcp i = true) ->
  length (cs_id ses) = 16%nat -> sane m -> m_map m (session_key C chost (cs_id ses)) = Some q ->
  m_heap m q = {| ses_secret := cs_secret ses; ses_win := snd (checks new_window hist) |} ->
  Forall (fun c => c <= c0) hist -> c0 + N.of_nat (total ps T) < 2 ^ 64 ->
  (forall i, (i < T)%nat -> Forall (fun p => lenN p + 16 <= 2 ^ 30) (ps i)) ->
  (forall i k p, (i < T)%nat -> In p (ps i) -> e_handler (E i) k (co_reply o) p = HOk (f p)) ->
  (forall i, (i < T)%nat -> co_reply o = true ->
     Forall (fun p => f p <> [] /\ lenN (f p) + 16 <= 2 ^ 30 /\ lenN (f p) <= n) (ps i)) ->
  let key := session_key C chost (cs_id ses) in
  let start := teaming C tcp inputs m T c0 (fun i => exchange C o ses n (ps i)) in
  exists N, forall sched x,
    team_spares C CE E tcp T key sched start -> team_run C CE E tcp T sched start = Some x ->
    timely C CE E tcp T sched start ->
    (team_moves sched <= N)%nat /\
    forall i, (i < T)%nat -> exists later,
      ps i = given (t_conn (z_srv x) i) ++ later /\
      (forall a, z_cl x i = CRet a -> a = expected o f (ps i)) /\ z_cl x i <> CPanic /\
      (team_rests C CE E tcp T x -> z_cl x i = CRet (expected o f (ps i)) /\ later = []).
Proof. exact team_timely. Qed.
Print Assumptions C165_timely.

(** In particular no order of steps loses anything if the clients send no more
    than 64 messages. *)
Theorem C165_few : forall C CE E tcp T inputs m chost ses hist c0 q o n f ps, CryptoLaws C ->
  (forall i, (i < T)%nat -> c_works (CE i) /\ writes_all (E i) /\ (forall k, e_quit (E i) k = false) /\
     e_host (E i) = Some chost /\ tcp i = true) ->
  length (cs_id ses) = 16%nat -> sane m -> m_map m (session_key C chost (cs_id ses)) = Some q ->
  m_heap m q = {| ses_secret := cs_secret ses; ses_win := snd (checks new_window hist) |} ->
  Forall (fun c => c <= c0) hist -> c0 + N.of_nat (total ps T) < 2 ^ 64 ->
  (forall i, (i < T)%nat -> Forall (fun p => lenN p + 16 <= 2 ^ 30) (ps i)) ->
  (forall i k p, (i < T)%nat -> In p (ps i) -> e_handler (E i) k (co_reply o) p = HOk (f p)) ->
  (forall i, (i < T)%nat -> co_reply o = true ->
     Forall (fun p => f p <> [] /\ lenN (f p) + 16 <= 2 ^ 30 /\ lenN (f p) <= n) (ps i)) ->
  (total ps T <= 64)%nat ->
  let key := session_key C chost (cs_id ses) in
  let start := teaming C tcp inputs m T c0 (fun i => exchange C o ses n (ps i)) in
  exists N, forall sched x,
    team_spares C CE E tcp T key sched start -> team_run C CE E tcp T sched start = Some x ->
    (team_moves sched <= N)%nat /\
    forall i, (i < T)%nat -> exists later,
      ps i = given (t_conn (z_srv x) i) ++ later /\
      (forall a, z_cl x i = CRet a -> a = expected o f (ps i)) /\ z_cl x i <> CPanic /\
      (team_rests C CE E tcp T x -> z_cl x i = CRet (expected o f (ps i)) /\ later = []).
Proof. exact team_few. Qed.
Print Assumptions C165_few.
Example C165_example :
  ((forall i, (i < 2)%nat -> c_works ex_CE) /\ (forall i, (i < 2)%nat -> writes_all (sys_E 2 i)) /\
   (forall i, (i < 2)%nat -> forall k, e_quit (sys_E 2 i) k = false) /\ (forall i, (i < 2)%nat -> e_host (sys_E 2 i) = Some ex_host) /\
   length (cs_id ex_ses) = 16%nat /\ sane team_mem /\
   m_map team_mem (session_key toy ex_host (cs_id ex_ses)) = Some 0%nat /\
   m_heap team_mem 0%nat = {| ses_secret := cs_secret ex_ses; ses_win := snd (checks new_window team_hist) |} /\
   Forall (fun c => c <= 3) team_hist /\ 3 + N.of_nat (total team_ps 2) < 2 ^ 64 /\
   (forall i, (i < 2)%nat -> Forall (fun p => lenN p + 16 <= 2 ^ 30) (team_ps i)) /\
   (forall i k p, (i < 2)%nat -> In p (team_ps i) -> e_handler (sys_E 2 i) k true p = HOk (sys_f p)) /\
   (forall i, (i < 2)%nat -> Forall (fun p => sys_f p <> [] /\ lenN (sys_f p) + 16 <= 2 ^ 30 /\ lenN (sys_f p) <= 100) (team_ps i))) /\
  team_spares toy (fun _ => ex_CE) (sys_E 2) (fun _ => true) 2 sys_key team_sched (team_start ex_opts team_ps) /\
  timely toy (fun _ => ex_CE) (sys_E 2) (fun _ => true) 2 team_sched (team_start ex_opts team_ps) /\
  team_out (trun team_sched (team_start ex_opts team_ps)) =
    Some ([(Some [RdOk [x41; x21] true; RdOk [x42; x43; x21] true], [[x41]; [x42; x43]]);
           (Some [RdOk [x44; x21] true; RdOk [x45; x21] true], [[x44]; [x45]])], [(1, true, [x42])], 7).
Proof.
  split; [exact team_hyps|]. destruct team_run_out as (R1 & R2 & R3).
  split; [apply team_sparesb_spares, R1|]. split; [apply timelyb_timely, R2|exact R3].
Qed.
