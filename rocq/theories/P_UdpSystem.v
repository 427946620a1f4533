(** Properties of a conversation over UDP on a server that serves others at the
    same time. *)
From Verif Require Import Bytes Crypto Toy Wire Server ServerSeq SpecServer MultiConn SpecMulti ServerExamples MultiExamples Keys Client
  ClientSeq SpecE2E ClientExamples System SpecSystem SystemExamples Udp SpecUdp UdpSystem SpecUdpSystem UdpSysProofs UdpSysExamples.

(** C151. A client dials over UDP and exchanges messages, each with a reply, with
    a server whose socket at the same time receives any datagrams of others and
    whose goroutines handle them, in any order of steps, as long as nobody else
    uses the client's entry of the secret manager. No datagram is lost, and all
    fit. Then the client and the goroutines that serve it stop after a number of
    steps that depends on nothing else; when they stop, the client has every
    reply, in order, and the handler saw every message once, in order. Before
    that nothing contrary was delivered. *)
Theorem C151_udp_among_others : forall C CE E hostof chunk me srv waiting m chost host csk rnd ssk o n f ps, CryptoLaws C ->
  (forall k, undisturbed C CE (dgram_env (E (2 * k)%nat) (hostof me)) chost host csk rnd ssk) ->
  (forall k i d sig, e_sign (E (2 * k)%nat) i SHA512 d = KOk sig -> lenN sig + 54 <= 65507) ->
  co_reply o = true -> Forall (fun q => fst q <> me) waiting -> wf (join m (fresh_conn C false [])) ->
  lenN ps < 2 ^ 64 -> Forall (fun p => lenN p + 50 <= 65507) ps ->
  (forall k i p, In p ps -> e_handler (E (2 * k)%nat) i true p = HOk (f p)) ->
  Forall (fun p => f p <> [] /\ lenN (f p) + 33 <= 65507 /\ lenN (f p) <= n) ps ->
  let key := session_key C chost (uuid_of rnd) in
  let start := udialling C waiting m (talk C o (Some host) n ps) in
  let moves := uown_moves C CE E hostof chunk me srv in
  let rests := @urests C CE E hostof chunk me srv (hs_error + list rd_result) in
  exists N, forall sched x,
    uspares C CE E hostof chunk me srv key sched start -> usys_run C CE E hostof chunk me srv sched start = Some x ->
    (moves sched start <= N)%nat /\
    (rests x <-> moves sched start = N) /\
    (rests x -> v_cl x = CRet (inr (expected o f ps)) /\ ucalls x = numbered 1 true ps) /\
    (forall a, v_cl x = CRet a -> a = inr (expected o f ps)) /\ v_cl x <> CPanic /\
    exists later, numbered 1 true ps = ucalls x ++ later.
Proof. exact uconversation. Qed.
Print Assumptions C151_udp_among_others.
(** The other client of the host, with a datagram at the server before the client
    starts and one that arrives in the middle, makes no difference. *)
Example C151_example :
  ((forall k : nat, undisturbed toy ex_CE (dgram_env ex_SE (dgr_host true dgr_me)) ex_host ex_name ex_csk ex_rnd ex_sign_key) /\
   (forall i d sig, e_sign ex_SE i SHA512 d = KOk sig -> lenN sig + 54 <= 65507) /\
   co_reply ex_opts = true /\ Forall (fun q => fst q <> dgr_me) [(dgr_peer, setup2)] /\ wf (join ex_mem (fresh_conn toy false [])) /\
   lenN sys_ps < 2 ^ 64 /\ Forall (fun p => lenN p + 50 <= 65507) sys_ps /\
   (forall i p, In p sys_ps -> e_handler ex_SE i true p = HOk (sys_f p)) /\
   Forall (fun p => sys_f p <> [] /\ lenN (sys_f p) + 33 <= 65507 /\ lenN (sys_f p) <= 100) sys_ps) /\
  uspares toy ex_CE (fun _ => ex_SE) (dgr_host true) dgr_chunk dgr_me dgr_srv sys_key sched_peer (dgr_start dgr_peer) /\
  uoutcome (dgr_run true sched_peer (dgr_start dgr_peer)) =
    Some (Some (inr [RdOk [x41; x21] true; RdOk [x42; x43; x21] true]), [(1, true, [x41]); (2, true, [x42; x43])],
          [(1, true, [x42])], 3%nat, 2%nat).
Proof. split; [exact peer_hyps|]. split; [apply usparesb_uspares, peer_run|apply peer_run]. Qed.

(** Clients of other hosts never use the entry, unless two hosts and ids collide
    under SHA-256. *)
Theorem C151_other_hosts : forall C CE E hostof chunk me srv waiting m chost host csk rnd ssk o n f ps, CryptoLaws C ->
  (forall k, undisturbed C CE (dgram_env (E (2 * k)%nat) (hostof me)) chost host csk rnd ssk) ->
  (forall k i d sig, e_sign (E (2 * k)%nat) i SHA512 d = KOk sig -> lenN sig + 54 <= 65507) ->
  co_reply o = true -> Forall (fun q => fst q <> me) waiting -> wf (join m (fresh_conn C false [])) ->
  lenN ps < 2 ^ 64 -> Forall (fun p => lenN p + 50 <= 65507) ps ->
  (forall k i p, In p ps -> e_handler (E (2 * k)%nat) i true p = HOk (f p)) ->
  Forall (fun p => f p <> [] /\ lenN (f p) + 33 <= 65507 /\ lenN (f p) <= n) ps ->
  let key := session_key C chost (uuid_of rnd) in
  (forall a hst id, a <> me -> hostof a = Some hst -> lenN id = 16 -> session_key C hst id <> key) ->
  let start := udialling C waiting m (talk C o (Some host) n ps) in
  let moves := uown_moves C CE E hostof chunk me srv in
  let rests := @urests C CE E hostof chunk me srv (hs_error + list rd_result) in
  exists N, forall sched x,
    (forall k, In (UCollect k) sched -> k <> key) -> usys_run C CE E hostof chunk me srv sched start = Some x ->
    (moves sched start <= N)%nat /\
    (rests x <-> moves sched start = N) /\
    (rests x -> v_cl x = CRet (inr (expected o f ps)) /\ ucalls x = numbered 1 true ps) /\
    (forall a, v_cl x = CRet a -> a = inr (expected o f ps)) /\ v_cl x <> CPanic /\
    exists later, numbered 1 true ps = ucalls x ++ later.
Proof. exact uconversation_hosts. Qed.
Print Assumptions C151_other_hosts.
Example C151_hosts_example :
  undisturbed toy ex_CE (dgram_env ex_SE (dgr_host false dgr_me)) ex_host ex_name ex_csk ex_rnd ex_sign_key /\
  (forall a hst id, a <> dgr_me -> dgr_host false a = Some hst -> lenN id = 16 -> session_key toy hst id <> sys_key) /\
  (forall k, In (UCollect k) sched_far -> k <> sys_key) /\
  uoutcome (dgr_run false sched_far (dgr_start dgr_far)) =
    Some (Some (inr [RdOk [x41; x21] true; RdOk [x42; x43; x21] true]), [(1, true, [x41]); (2, true, [x42; x43])],
          [(1, true, [x42])], 3%nat, 2%nat).
Proof.
  split; [apply dgr_undisturbed|]. split; [exact far_hosts|]. split; [exact far_collects|exact far_run].
Qed.
