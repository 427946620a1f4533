(** Several goroutines that read from one client. *)
From Verif Require Import Bytes Parser Crypto Toy Wire WireSeq Server Keys Client ClientSeq SpecClient ServerExamples ClientExamples SpecReaders ReadersProofs.

(** C182. Wanted, as of every net.Conn: several goroutines may call Read on one
    client at the same time; what arrives goes to one of them. It is not so. A
    reply waits, alone or with more behind it, and two Reads begin. There is an
    interleaving in which both fail and nothing is left: after the first has taken
    the first octet, the second takes the counter for an error whose text is at
    least 2^40 octets long. *)
Theorem C182_concurrent_reads_refuted : forall C E o ses n1 n2 s c ct rest, c_works E ->
  c_buf s = [] -> 1 <= c < 2 ^ 23 -> lenN ct + lenN rest + 3 < 2 ^ 40 -> c_in s = enc_response (RsProcess c ct) ++ rest ->
  exists sched e1 e2 s', turns C E rd_result sched [client_read C o ses n1; client_read C o ses n2] s = ([CRet (RdErr e1); CRet (RdErr e2)], s') /\
    c_in s' = [] /\ c_buf s' = [].
Proof. exact (fun C E o ses n1 n2 s c ct rest W => reply_torn C E o ses W n1 n2 s c ct rest). Qed.
Print Assumptions C182_concurrent_reads_refuted.
(** A reply to the last Write that a lone Read returns. *)
Example C182_example :
  let ps := [client_read toy ex_opts ex_ses 100; client_read toy ex_opts ex_ses 100] in
  let s := ex_cs (ex_reply [x41; x42]) in
  let run sched := map (fun p => match p with CRet r => Some r | _ => None end) (fst (turns toy ex_CE rd_result sched ps s)) in
  run (repeat 0%nat 20) = [Some (RdOk [x41; x42] true); None] /\
  run (repeat 0%nat 3 ++ repeat 1%nat 20 ++ repeat 0%nat 20) = [Some (RdErr (RdParse EShort)); Some (RdErr (RdParse ESize))].
Proof. vm_compute. split; reflexivity. Qed.

(** Nor is every octet given to one Read only: the rest of a reply that is in the
    buffer can be returned by both. *)
Theorem C182_read_once_refuted : forall C E o ses n1 n2 s, c_works E -> c_buf s <> [] ->
  exists sched e1 e2 s', turns C E rd_result sched [client_read C o ses n1; client_read C o ses n2] s =
    ([CRet (RdOk (takeN n1 (c_buf s)) e1); CRet (RdOk (takeN n2 (c_buf s)) e2)], s').
Proof. exact (fun C E o ses n1 n2 s W => buffered_twice C E o ses W n1 n2 s). Qed.
Print Assumptions C182_read_once_refuted.
Example C182_once_example :
  let ps := [client_read toy ex_opts ex_ses 1; client_read toy ex_opts ex_ses 100] in
  let s := c_set_buf (ex_cs []) [x41; x42] in
  let run sched := map (fun p => match p with CRet r => Some r | _ => None end) (fst (turns toy ex_CE rd_result sched ps s)) in
  run (repeat 0%nat 5 ++ repeat 1%nat 5) = [Some (RdOk [x41] false); Some (RdOk [x42] true)] /\
  run [0; 0; 1; 1; 0; 1]%nat = [Some (RdOk [x41] false); Some (RdOk [x41; x42] true)].
Proof. vm_compute. split; reflexivity. Qed.

(** What holds: any number of goroutines that exclude each other, in whatever
    order, so that a Read once begun ends before the next begins, get what one
    goroutine would get that reads as often with their buffers. *)
Theorem C182_one_at_a_time_partial : forall C E o ses ns bs s, NoDup (map fst bs) -> Forall (fun b => (fst b < length ns)%nat) bs ->
  let '(ps, s') := turns C E rd_result (in_blocks bs) (map (client_read C o ses) ns) s in
  (forall b, In b bs -> exists r, nth_error ps (fst b) = Some (CRet r)) ->
  exists rs, reads C E o ses (map (fun b => nth (fst b) ns 0) bs) s = (map Some rs, s') /\
    Forall2 (fun b r => nth_error ps (fst b) = Some (CRet r)) bs rs.
Proof. exact readers_in_turn. Qed.
Print Assumptions C182_one_at_a_time_partial.
(** Three goroutines with small buffers; the last comes first. *)
Example C182_partial_example :
  let bs := [(2, 30); (0, 10); (1, 12)]%nat in
  let '(ps, _) := turns toy ex_CE rd_result (in_blocks bs) (map (client_read toy ex_opts ex_ses) [1; 100; 2]) (ex_cs (ex_reply [x41; x42; x43; x44])) in
  map (fun p => match p with CRet r => Some r | _ => None end) ps = [Some (RdOk [x43] false); Some (RdOk [x44] true); Some (RdOk [x41; x42] false)].
Proof. vm_compute. reflexivity. Qed.
