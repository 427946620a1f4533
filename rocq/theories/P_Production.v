(** Property C176: the production client of the README, which takes the server's
    key from the DNSKEY records of its name. *)
From Coq Require Import Permutation.
From Verif Require Import Bytes Crypto Toy Wire WireSeq Server ServerSeq SpecServer MultiConn SpecMulti ServerProps ServerExamples MultiExamples
  Keys Client ClientSeq SpecE2E ClientExamples System SpecSystem SystemExamples QuickStart QuickExamples
  Dnssec SpecDnssec DnssecExamples Production ProductionProofs ProductionExamples.

(** C176 is refuted: the server's key is one of the DNSKEY records of its name, and
    so is a zone-signing key, as in every zone that is signed with one. Then the
    records can come in an order with which the default client does not accept the
    genuine server: the handshake fails, unless a signature of the server is also
    one of the zone's key. ([knowing CE pk] says that [pk] is the server's key.) *)
Theorem C176_key_in_dns_refuted : forall C CE SE chost host csk rnd ssk pk answers s s' alg raw pk', CryptoLaws C ->
  undisturbed C (knowing CE pk) SE chost host csk rnd ssk ->
  carries pk -> build_dnskey pk = KOk s -> In s answers -> In s' answers -> zsk s' alg raw -> material alg raw pk' ->
  exists order, Permutation order answers /\
  forall answer cs ss, answer host = DohAnswer 200 (Some (true, order)) -> wf ss ->
  let '(r, ss') := srun C SE (conn_body C) (set_in ss (enc_request (RqSetup (uuid_of rnd) (x_pub C csk)))) in
  let '(h, cs') := crun C (resolving CE answer) (handshake C (Some host)) (c_set_in cs (sent_by_server ss ss')) in
  h = Some (inl HsSignature) \/
  exists content srnd sig, sign C ssk srnd SHA512 content = KOk sig /\ verify_signature C pk' SHA512 content sig = VOk true.
Proof. exact zone_key_first. Qed.
Print Assumptions C176_key_in_dns_refuted.
Example C176_refuted_example :
  undisturbed toy (knowing ex_CE qs_pk) ex_SE ex_host ex_name ex_csk ex_rnd ex_sign_key /\
  (carries qs_pk /\ build_dnskey qs_pk = KOk (ex_text qs_pk)) /\
  (exists alg raw, zsk (ex_text zone_key) alg raw /\ material alg raw zone_key) /\
  shared = [ksk; ex_text zone_key; ex_text qs_pk] /\
  dialled alone = Some (inr ex_ses) /\ dialled shared = Some (inl HsSignature) /\ dialled (rev shared) = Some (inr ex_ses).
Proof. split; [exact pr_knows|]. split; [exact pr_carries|]. split; [exact pr_zone|]. split; [reflexivity|exact pr_runs]. Qed.

(** What holds: if the server's key is the only zone-signing key of its name, the
    default client dials and talks as in C147, whatever the order of the records
    and whoever else is served. Missing: zones with keys of their own. *)
Theorem C176_key_in_dns_partial : forall C CE E tcp me inputs m chost host csk rnd ssk o n f ps pk answers order answer s, CryptoLaws C ->
  undisturbed C (knowing CE pk) (E me) chost host csk rnd ssk ->
  carries pk -> build_dnskey pk = KOk s -> In s answers -> (forall x alg raw, In x answers -> zsk x alg raw -> material alg raw pk) ->
  Permutation order answers -> answer host = DohAnswer 200 (Some (true, order)) ->
  tcp me = true -> wf (join m (fresh_conn C true [])) ->
  lenN ps < 2 ^ 64 -> Forall (fun p => lenN p + 16 <= 2 ^ 30) ps ->
  (forall i p, In p ps -> e_handler (E me) i (co_reply o) p = HOk (f p)) ->
  (co_reply o = true -> Forall (fun p => f p <> [] /\ lenN (f p) + 16 <= 2 ^ 30 /\ lenN (f p) <= n) ps) ->
  let key := session_key C chost (uuid_of rnd) in
  let start := dialling C tcp inputs m me (talk C o (Some host) n ps) in
  exists N, forall sched x,
    spares C (resolving CE answer) E tcp me key sched start -> sys_run C (resolving CE answer) E tcp me sched start = Some x ->
    (own_moves sched <= N)%nat /\
    (rests C (resolving CE answer) E tcp me x <-> own_moves sched = N) /\
    (rests C (resolving CE answer) E tcp me x ->
       y_cl x = CRet (inr (expected o f ps)) /\
       seen (c_calls (t_conn (y_srv x) me)) = numbered 1 (co_reply o) ps) /\
    (forall a, y_cl x = CRet a -> a = inr (expected o f ps)) /\ y_cl x <> CPanic /\
    exists later, numbered 1 (co_reply o) ps = seen (c_calls (t_conn (y_srv x) me)) ++ later.
Proof. exact production. Qed.
Print Assumptions C176_key_in_dns_partial.
Example C176_example :
  undisturbed toy (knowing ex_CE qs_pk) (sys_E 2 0) ex_host ex_name ex_csk ex_rnd ex_sign_key /\
  (carries qs_pk /\ build_dnskey qs_pk = KOk (ex_text qs_pk)) /\ In (ex_text qs_pk) alone /\
  (forall x alg raw, In x alone -> zsk x alg raw -> material alg raw qs_pk) /\
  spares toy pr_CE (sys_E 2) (fun _ => true) 0 sys_key sched_reply (sys_start ex_opts) /\
  outcome (sys_run toy pr_CE (sys_E 2) (fun _ => true) 0 sched_reply (sys_start ex_opts)) =
    Some (Some (inr [RdOk [x41; x21] true; RdOk [x42; x43; x21] true]), [(1, true, [x41]); (2, true, [x42; x43])], [(1, true, [x42])]).
Proof.
  split; [exact qs_undisturbed|]. split; [exact pr_carries|]. split; [right; right; left; reflexivity|]. split; [exact alone_only|].
  split; [apply sparesr_spares, pr_talk|apply pr_talk].
Qed.
