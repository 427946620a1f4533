(** Properties of the quick start of the README, over UDP. *)
From Verif Require Import Bytes Crypto Toy Wire Server ServerSeq SpecServer MultiConn SpecMulti ServerExamples MultiExamples Keys Client
  ClientSeq SpecClient SpecE2E ClientExamples System SpecSystem SystemExamples Usage QuickStart QuickExamples
  Udp SpecUdp UdpSystem SpecUdpSystem UdpSysExamples UdpQuick UdpQuickExamples.

(** C171. As C170, on UDP sockets that lose nothing. A client fetches the key of
    the server with one datagram; whatever datagrams of others come, also in the
    name of its host, the fetch ends after a number of steps that depends on
    nothing else, with that key, without a call of the handler. A client that
    knows this key dials and, for every message, calls Write and io.ReadAll. If
    nobody else uses its entry of the secret manager and every message and reply
    fits a datagram, it stops after a number of steps that depends on nothing
    else, with the reply of every message, whole, without an error, and the
    handler saw every message once, in order. *)
Theorem C171_udp_quick_start : forall C CE E hostof chunk srv ssk alg pk raw, CryptoLaws C ->
  fetch_key C ssk = KOk (alg, pk) -> pkix_marshal C pk = Some raw -> pkix_parse C raw = Some pk ->
  lenN raw + 10 <= 65507 -> alg < 256 -> (forall i, ce_deadline CE i = true) ->
  (forall me waiting m, Forall (fun q => fst q <> me) waiting -> wf (join m (fresh_conn C false [])) ->
     (forall k i, e_fetch (E (2 * k)%nat) i = fetch_key C ssk) ->
     let start := udialling C waiting m (fetch_protocol C) in
     let moves := uown_moves C CE E hostof chunk me srv in
     let rests := @urests C CE E hostof chunk me srv (fk_error + pubkey) in
     exists N, forall sched x, usys_run C CE E hostof chunk me srv sched start = Some x ->
       (moves sched start <= N)%nat /\ (rests x <-> moves sched start = N) /\
       (rests x -> v_cl x = CRet (inr pk) /\ ucalls x = []) /\
       (forall a, v_cl x = CRet a -> a = inr pk) /\ v_cl x <> CPanic) /\
  (forall me waiting m chost host csk rnd o size n f ps, Forall (fun q => fst q <> me) waiting -> wf (join m (fresh_conn C false [])) ->
     (forall k, undisturbed C (knowing CE pk) (dgram_env (E (2 * k)%nat) (hostof me)) chost host csk rnd ssk) ->
     (forall k i d sig, e_sign (E (2 * k)%nat) i SHA512 d = KOk sig -> lenN sig + 54 <= 65507) ->
     co_reply o = true -> (forall i, 0 < size i) ->
     lenN ps < 2 ^ 64 -> Forall (fun p => lenN p + 50 <= 65507) ps ->
     (forall k i p, In p ps -> e_handler (E (2 * k)%nat) i true p = HOk (f p)) ->
     Forall (fun p => f p <> [] /\ lenN (f p) + 33 <= 65507 /\ (length (f p) <= n)%nat) ps ->
     let key := session_key C chost (uuid_of rnd) in
     let start := udialling C waiting m (quick C o host size n ps) in
     let moves := uown_moves C (knowing CE pk) E hostof chunk me srv in
     let rests := @urests C (knowing CE pk) E hostof chunk me srv (hs_error + list (option (bytes * option rd_error))) in
     exists N, forall sched x, uspares C (knowing CE pk) E hostof chunk me srv key sched start ->
       usys_run C (knowing CE pk) E hostof chunk me srv sched start = Some x ->
       (moves sched start <= N)%nat /\ (rests x <-> moves sched start = N) /\
       (rests x -> v_cl x = CRet (inr (map (fun p => Some (f p, None)) ps)) /\ ucalls x = numbered 1 true ps) /\
       (forall a, v_cl x = CRet a -> a = inr (map (fun p => Some (f p, None)) ps)) /\ v_cl x <> CPanic).
Proof. exact udp_quick_start. Qed.
Print Assumptions C171_udp_quick_start.
(** An Ed25519 key, two messages, read one octet at a time, while another client
    of the host dials and sends a message of its own. *)
Example C171_example :
  (fetch_key toy ex_sign_key = KOk (3, qs_pk) /\ pkix_marshal toy qs_pk = Some qs_raw /\ pkix_parse toy qs_raw = Some qs_pk /\
   lenN qs_raw + 10 <= 65507) /\
  ((forall i, ce_deadline ex_CE i = true) /\ wf (join ex_mem (fresh_conn toy false [])) /\
   (forall i, e_fetch ex_SE i = fetch_key toy ex_sign_key) /\
   uoutcome (usys_run toy ex_CE (fun _ => ex_SE) (dgr_host true) dgr_chunk dgr_me dgr_srv sched_ufetch uq_fetch) =
     Some (Some (inr qs_pk), [], [(1, true, [x42])], 1%nat, 2%nat)) /\
  (forall k : nat, undisturbed toy qs_CE (dgram_env ex_SE (dgr_host true dgr_me)) ex_host ex_name ex_csk ex_rnd ex_sign_key) /\
  (forall i d sig, e_sign ex_SE i SHA512 d = KOk sig -> lenN sig + 54 <= 65507) /\
  uspares toy qs_CE (fun _ => ex_SE) (dgr_host true) dgr_chunk dgr_me dgr_srv sys_key sched_uquick uq_talk /\
  uoutcome (usys_run toy qs_CE (fun _ => ex_SE) (dgr_host true) dgr_chunk dgr_me dgr_srv sched_uquick uq_talk) =
    Some (Some (inr [Some ([x41; x21], None); Some ([x42; x43; x21], None)]), [(1, true, [x41]); (2, true, [x42; x43])],
          [(1, true, [x42])], 3%nat, 2%nat).
Proof.
  split; [vm_compute; repeat split; discriminate|].
  split; [split; [reflexivity|split; [exact dgr_wf|split; [exact uq_fetches|exact uq_fetch_run]]]|].
  split; [exact uq_undisturbed|]. split; [exact dgr_sig|]. split; [apply usparesq_uspares, uq_talk_run|apply uq_talk_run].
Qed.
