(** Properties of a conversation on a server that serves others at the same
    time. *)
From Verif Require Import Bytes Crypto Toy Wire Server ServerSeq SpecServer MultiConn SpecMulti ServerExamples MultiExamples Keys Client
  ClientSeq SpecE2E ClientExamples System SpecSystem SystemProofs SystemExamples.

(** C147. A client dials and exchanges messages on a connection of a server that
    at the same time serves any number of other connections, with any octets
    arriving there, in any order of steps, as long as nobody else uses the
    client's entry of the secret manager. Then the client and its connection
    stop after a number of steps that depends on nothing else; when they stop,
    the client has every reply, in order, and the handler saw every message
    once, in order. Before that nothing contrary was delivered. *)
Theorem C147_among_others : forall C CE E tcp me inputs m chost host csk rnd ssk o n f ps, CryptoLaws C ->
  undisturbed C CE (E me) chost host csk rnd ssk -> tcp me = true -> wf (join m (fresh_conn C true [])) ->
  lenN ps < 2 ^ 64 -> Forall (fun p => lenN p + 16 <= 2 ^ 30) ps ->
  (forall i p, In p ps -> e_handler (E me) i (co_reply o) p = HOk (f p)) ->
  (co_reply o = true -> Forall (fun p => f p <> [] /\ lenN (f p) + 16 <= 2 ^ 30 /\ lenN (f p) <= n) ps) ->
  let key := session_key C chost (uuid_of rnd) in
  let start := dialling C tcp inputs m me (talk C o (Some host) n ps) in
  exists N, forall sched x,
    spares C CE E tcp me key sched start -> sys_run C CE E tcp me sched start = Some x ->
    (own_moves sched <= N)%nat /\
    (rests C CE E tcp me x <-> own_moves sched = N) /\
    (rests C CE E tcp me x ->
       y_cl x = CRet (inr (expected o f ps)) /\
       seen (c_calls (t_conn (y_srv x) me)) = numbered 1 (co_reply o) ps) /\
    (forall a, y_cl x = CRet a -> a = inr (expected o f ps)) /\ y_cl x <> CPanic /\
    exists later, numbered 1 (co_reply o) ps = seen (c_calls (t_conn (y_srv x) me)) ++ later.
Proof. exact conversation. Qed.
Print Assumptions C147_among_others.
(** The other client of the host and the octets that arrive for it make no
    difference. *)
Example C147_example :
  (undisturbed toy ex_CE (sys_E 2 0) ex_host ex_name ex_csk ex_rnd ex_sign_key /\ wf (join ex_mem (fresh_conn toy true [])) /\
   lenN sys_ps < 2 ^ 64 /\ Forall (fun p => lenN p + 16 <= 2 ^ 30) sys_ps /\
   (forall i p, In p sys_ps -> e_handler (sys_E 2 0) i true p = HOk (sys_f p)) /\
   Forall (fun p => sys_f p <> [] /\ lenN (sys_f p) + 16 <= 2 ^ 30 /\ lenN (sys_f p) <= 100) sys_ps) /\
  spares toy ex_CE (sys_E 2) (fun _ => true) 0 sys_key sched_reply (sys_start ex_opts) /\
  outcome (sys_run toy ex_CE (sys_E 2) (fun _ => true) 0 sched_reply (sys_start ex_opts)) =
    Some (Some (inr [RdOk [x41; x21] true; RdOk [x42; x43; x21] true]), [(1, true, [x41]); (2, true, [x42; x43])], [(1, true, [x42])]).
Proof. split; [exact reply_hyps|]. split; [apply sparesb_spares, reply_run|apply reply_run]. Qed.

(** Clients of other hosts never use the entry, unless two hosts and ids collide
    under SHA-256. *)
Theorem C147_other_hosts : forall C CE E tcp me inputs m chost host csk rnd ssk o n f ps, CryptoLaws C ->
  undisturbed C CE (E me) chost host csk rnd ssk -> tcp me = true -> wf (join m (fresh_conn C true [])) ->
  lenN ps < 2 ^ 64 -> Forall (fun p => lenN p + 16 <= 2 ^ 30) ps ->
  (forall i p, In p ps -> e_handler (E me) i (co_reply o) p = HOk (f p)) ->
  (co_reply o = true -> Forall (fun p => f p <> [] /\ lenN (f p) + 16 <= 2 ^ 30 /\ lenN (f p) <= n) ps) ->
  (forall j hst id, j <> me -> e_host (E j) = Some hst -> lenN id = 16 ->
     session_key C hst id <> session_key C chost (uuid_of rnd)) ->
  let start := dialling C tcp inputs m me (talk C o (Some host) n ps) in
  exists N, forall sched x,
    (forall k, In (MCollect k) sched -> k <> session_key C chost (uuid_of rnd)) ->
    sys_run C CE E tcp me sched start = Some x ->
    (own_moves sched <= N)%nat /\
    (rests C CE E tcp me x <-> own_moves sched = N) /\
    (rests C CE E tcp me x ->
       y_cl x = CRet (inr (expected o f ps)) /\
       seen (c_calls (t_conn (y_srv x) me)) = numbered 1 (co_reply o) ps) /\
    (forall a, y_cl x = CRet a -> a = inr (expected o f ps)) /\ y_cl x <> CPanic /\
    exists later, numbered 1 (co_reply o) ps = seen (c_calls (t_conn (y_srv x) me)) ++ later.
Proof. exact conversation_hosts. Qed.
Print Assumptions C147_other_hosts.
Example C147_hosts_example :
  undisturbed toy ex_CE (sys_E 1 0) ex_host ex_name ex_csk ex_rnd ex_sign_key /\
  (forall j hst id, j <> 0%nat -> e_host (sys_E 1 j) = Some hst -> lenN id = 16 -> session_key toy hst id <> sys_key) /\
  (forall k, In (MCollect k) sched_quiet -> k <> sys_key) /\
  outcome (sys_run toy ex_CE (sys_E 1) (fun _ => true) 0 sched_quiet (sys_start sys_quiet)) =
    Some (Some (inr []), [(1, false, [x41]); (2, false, [x42; x43])], []).
Proof.
  split; [apply sys_undisturbed; repeat constructor|]. split; [exact hosts_differ|]. split; [exact quiet_collects|exact quiet_run].
Qed.
