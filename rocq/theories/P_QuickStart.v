(** Properties of the quick start of the README. *)
From Verif Require Import Bytes Crypto Toy Wire Server ServerSeq SpecServer MultiConn SpecMulti ServerExamples MultiExamples Keys Client
  ClientSeq SpecClient SpecE2E ClientExamples System SpecSystem SystemExamples Usage QuickStart QuickProofs QuickExamples.

(** C170. A server signs with [ssk] and shows the public key of it. A client
    fetches the key on one connection; whatever other connections do, the
    fetch ends after a number of steps that depends on nothing else, with that
    key, without a call of the handler. A client that knows this key dials on
    another connection and, for every message, calls Write and io.ReadAll
    (buffers of any sizes, one octet at least). If nobody else uses its entry of
    the secret manager, it stops after a number of steps that depends on nothing
    else, with the reply of every message, whole, without an error, and the
    handler saw every message once, in order. *)
Theorem C170_quick_start : forall C CE E tcp ssk alg pk raw, CryptoLaws C ->
  fetch_key C ssk = KOk (alg, pk) -> pkix_marshal C pk = Some raw -> pkix_parse C raw = Some pk ->
  lenN raw <= 2 ^ 16 -> alg < 256 ->
  (forall me inputs m, tcp me = true -> wf (join m (fresh_conn C true [])) -> c_works CE -> writes_all (E me) ->
     (forall i, e_quit (E me) i = false) -> (forall i, e_fetch (E me) i = fetch_key C ssk) ->
     let start := dialling C tcp inputs m me (fetch_protocol C) in
     exists N, forall sched x, sys_run C CE E tcp me sched start = Some x ->
       (own_moves sched <= N)%nat /\ (rests C CE E tcp me x <-> own_moves sched = N) /\
       (rests C CE E tcp me x -> y_cl x = CRet (inr pk) /\ seen (c_calls (t_conn (y_srv x) me)) = []) /\
       (forall a, y_cl x = CRet a -> a = inr pk) /\ y_cl x <> CPanic) /\
  (forall me inputs m chost host csk rnd o size n f ps, tcp me = true -> wf (join m (fresh_conn C true [])) ->
     undisturbed C (knowing CE pk) (E me) chost host csk rnd ssk -> co_reply o = true -> (forall i, 0 < size i) ->
     lenN ps < 2 ^ 64 -> Forall (fun p => lenN p + 16 <= 2 ^ 30) ps ->
     (forall i p, In p ps -> e_handler (E me) i true p = HOk (f p)) ->
     Forall (fun p => f p <> [] /\ lenN (f p) + 16 <= 2 ^ 30 /\ (length (f p) <= n)%nat) ps ->
     let key := session_key C chost (uuid_of rnd) in
     let start := dialling C tcp inputs m me (quick C o host size n ps) in
     exists N, forall sched x, spares C (knowing CE pk) E tcp me key sched start ->
       sys_run C (knowing CE pk) E tcp me sched start = Some x ->
       (own_moves sched <= N)%nat /\ (rests C (knowing CE pk) E tcp me x <-> own_moves sched = N) /\
       (rests C (knowing CE pk) E tcp me x ->
          y_cl x = CRet (inr (map (fun p => Some (f p, None)) ps)) /\
          seen (c_calls (t_conn (y_srv x) me)) = numbered 1 true ps) /\
       (forall a, y_cl x = CRet a -> a = inr (map (fun p => Some (f p, None)) ps)) /\ y_cl x <> CPanic).
Proof. exact quick_start. Qed.
Print Assumptions C170_quick_start.
(** An Ed25519 key, two messages, read one octet at a time, while another client
    of the host dials and sends a message of its own. *)
Example C170_example :
  (fetch_key toy ex_sign_key = KOk (3, qs_pk) /\ pkix_marshal toy qs_pk = Some qs_raw /\ pkix_parse toy qs_raw = Some qs_pk /\
   lenN qs_raw <= 2 ^ 16) /\
  (c_works ex_CE /\ wf (join ex_mem (fresh_conn toy true [])) /\
   outcome (sys_run toy ex_CE (sys_E 2) (fun _ => true) 0 sched_fetch qs_fetch) = Some (Some (inr qs_pk), [], [])) /\
  undisturbed toy qs_CE (sys_E 2 0) ex_host ex_name ex_csk ex_rnd ex_sign_key /\
  spares toy qs_CE (sys_E 2) (fun _ => true) 0 sys_key sched_quick qs_talk /\
  outcome (sys_run toy qs_CE (sys_E 2) (fun _ => true) 0 sched_quick qs_talk) =
    Some (Some (inr [Some ([x41; x21], None); Some ([x42; x43; x21], None)]), [(1, true, [x41]); (2, true, [x42; x43])], [(1, true, [x42])]).
Proof.
  split; [exact qs_key|]. split; [split; [exact ex_c_works|split; [exact sys_wf|exact qs_fetch_run]]|].
  split; [exact qs_undisturbed|]. split; [apply sparesq_spares, qs_talk_run|apply qs_talk_run].
Qed.
