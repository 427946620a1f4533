(** A program that dials again. *)
From Verif Require Import Bytes Parser Crypto Toy Wire WireSeq Replay SpecReplay Server ServerSeq SpecServer ServerProps MultiConn SpecMulti ServerExamples Keys Client
  ClientSeq SpecClient SpecE2E ClientExamples Udp SpecUdp UdpThms SpecUdpLoss SpecUdpDup SetupTwiceExamples SpecRoam SpecRestart SpecPersist PersistProofs PersistExamples.

(** C186. A program that uses a client over UDP and, when a Read returns error 3
    ("unknown client"), dials a new client and sends the message again gets the
    answer to every message, and the handler sees every message exactly once, in
    order, whatever restarts of the server and losses of sessions come between the
    messages. It dials at most once for each of these, and once at the start. *)
Theorem C186_persistent_program : forall C CEs SE hostof chunk send me srv o host n chost ssk f l sn ss, CryptoLaws C ->
  (forall k, exists csk rnd, undisturbed C (CEs k) SE chost host csk rnd ssk) ->
  (forall i b, lenN b <= 65507 -> send i b = true) -> hostof me = Some chost ->
  (forall i m sig, e_sign SE i SHA512 m = KOk sig -> lenN sig + 54 <= 65507) -> co_reply o = true ->
  wf ss -> n_closed sn = false -> n_in sn = [] -> lenN (spoken l) < 2 ^ 64 ->
  Forall (fun p => lenN p + 50 <= 65507 /\ (forall i, e_handler SE i true p = HOk (f p)) /\ f p <> [] /\ lenN (f p) + 33 <= 65507 /\ lenN (f p) <= n) (spoken l) ->
  let '(rs, (dials, ss')) := persist C CEs SE hostof chunk send me srv o host n 0 None l sn ss in
  rs = map (fun p => Some (RdOk (f p) true)) (spoken l) /\ map snd (s_calls ss') = map snd (s_calls ss) ++ spoken l /\ (dials <= 1 + losses l)%nat.
Proof. exact persisting. Qed.
Print Assumptions C186_persistent_program.
(** A restart, a loss that hits the client and one that does not. *)
Example C186_example :
  let l := [Say [x41]; Restart; Restart; Say [x42]; Drop (fun _ => false); Say [x43]; Drop (fun _ => true); Say []; Say [x44]] in
  (forall k, exists csk rnd, undisturbed toy (pe_CE k) tw_SE ex_host ex_name csk rnd ex_sign_key) /\
  (forall i m sig, e_sign tw_SE i SHA512 m = KOk sig -> lenN sig + 54 <= 65507) /\
  (forall i p, e_handler tw_SE i true p = HOk (p ++ [x21])) /\ spoken l = [[x41]; [x42]; [x43]; []; [x44]] /\ losses l = 4%nat /\
  (let '(rs, (dials, s')) := persist toy pe_CE tw_SE ex_hostof (fun _ => 3) (fun _ b => lenN b <=? 65507) [x01] [x02] ex_opts ex_name 100 0 None l (ex_net []) (sst0 []) in
   (rs, map snd (s_calls s'), dials)) = (map (fun p => Some (RdOk (p ++ [x21]) true)) (spoken l), spoken l, 3%nat).
Proof.
  split; [exact pe_undisturbed|]. split; [exact (proj2 tw_undisturbed)|]. split; [reflexivity|]. split; [reflexivity|]. split; [reflexivity|].
  vm_compute. reflexivity.
Qed.
