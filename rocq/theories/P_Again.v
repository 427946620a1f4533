(** Property C177: repeating a Write that reported an error. *)
From Coq Require Import Strings.String.
From Verif Require Import Bytes Parser Crypto Kdf Wire WireSeq Toy Replay SpecReplay Server ServerSeq SpecServer Keys Client ClientSeq SpecClient
  SpecE2E ServerExamples ClientExamples LongExamples SpecAgain AgainProofs.

(** C177. Refuted: if the connection took the first [k] octets of a request (the
    header and perhaps some ciphertext, but not all) and Write reported that, the
    server takes the first octets of the next Write's request for what is missing.
    It answers "failed to decrypt message" (unless these octets happen to
    authenticate), calls no handler for either message and goes on reading in the
    middle of the second request; Read returns that error. *)
Theorem C177_write_again_refuted : forall C, CryptoLaws C -> forall CE SE o chost ses hist cs ss p1 p2 k n,
  (forall i, ce_deadline CE i = true) -> writes_all SE -> (forall i, e_quit SE i = false) -> e_host SE = Some chost ->
  paired C ses chost hist cs ss -> Forall (fun c => c <= c_ctr cs) hist -> c_ctr cs + 2 < 2 ^ 64 -> lenN p1 + 16 <= 2 ^ 30 ->
  34 <= k -> k < lenN p1 + 50 -> lenN p1 <= k + lenN p2 ->
  let '(w1, c1) := crun C CE (client_write C o ses p1) cs in
  let '(w2, c2) := crun C CE (client_write C o ses p2) c1 in
  w1 = Some (WrConn k true) -> w2 = Some (WrConn (lenN p2 + 50) false) ->
  let '(res, ss') := srun C SE (conn_body C) (set_in ss (sent_by_client cs c2)) in
  let '(r, _) := crun C CE (client_read C o ses n) (c_set_in c2 (sent_by_server ss ss')) in
  exists key, client_gcm C (cs_secret ses) = Some key /\
  let nonce c := x00 :: repeat x00 3 ++ be_enc 8 c in
  let f1 := enc_request (RqProcess (cs_id ses) (c_ctr cs + 1) (gcm_seal C key (nonce (c_ctr cs + 1)) p1) (co_reply o)) in
  let f2 := enc_request (RqProcess (cs_id ses) (c_ctr cs + 2) (gcm_seal C key (nonce (c_ctr cs + 2)) p2) (co_reply o)) in
  let m := lenN p1 + 50 - k in
  sent_by_client cs c2 = takeN k f1 ++ f2 /\
  (gcm_open C key (nonce (c_ctr cs + 1)) (dropN 34 (takeN k f1) ++ takeN m f2) = None ->
   s_calls ss' = s_calls ss /\ s_in ss' = dropN m f2 /\ res = Some true /\
   r = Some (RdErr (RdRemote 2 (str "failed to decrypt message")))).
Proof. exact write_again. Qed.
Print Assumptions C177_write_again_refuted.
(** A connection that times out after 40 octets of the first request. *)
Definition ex_cut : cenv := {|
  ce_end := EndEOF; ce_write := fun i b => if Nat.eqb i 1 then (40, true) else (lenN b, false); ce_deadline := fun _ => true;
  ce_fetch := fun _ => None; ce_rand := None; ce_gen := None |}.
Example C177_refuted_example :
  paired toy ex_ses ex_host [] (cst0 []) ex_ss /\ (forall i, ce_deadline ex_cut i = true) /\
  let c1 := snd (crun toy ex_cut (client_write toy ex_opts ex_ses [x41; x42]) (cst0 [])) in
  let c2 := snd (crun toy ex_cut (client_write toy ex_opts ex_ses [x41; x42]) c1) in
  let s1 := snd (srun toy ex_SE (conn_body toy) (set_in ex_ss (sent_by_client (cst0 []) c2))) in
  fst (crun toy ex_cut (client_write toy ex_opts ex_ses [x41; x42]) (cst0 [])) = Some (WrConn 40 true) /\
  fst (crun toy ex_cut (client_write toy ex_opts ex_ses [x41; x42]) c1) = Some (WrConn 52 false) /\
  s_calls s1 = [] /\ lenN (s_in s1) = 40 /\
  fst (crun toy ex_cut (client_read toy ex_opts ex_ses 100) (c_set_in c2 (sent_by_server ex_ss s1))) =
    Some (RdErr (RdRemote 2 (str "failed to decrypt message"))).
Proof. split; [apply long_reply_example|]. split; [reflexivity|]. vm_compute. auto 10. Qed.

(** If the connection takes a request whole or not at all, any Write can be followed
    by another, and messages repeated: those whose Write reported no error, and no
    others, reach the handler, in order and once each, and Read returns the reply to
    each; a Write reports an error only if the connection took nothing. Missing: a
    connection that takes part of a request. *)
Theorem C177_write_again_partial : forall C CE SE o chost, CryptoLaws C ->
  all_or_nothing CE -> writes_all SE -> (forall i, e_quit SE i = false) -> e_host SE = Some chost -> co_reply o = true ->
  forall ses n (f : bytes -> bytes) ps hist cs ss,
  paired C ses chost hist cs ss -> Forall (fun c => c <= c_ctr cs) hist -> c_ctr cs + lenN ps < 2 ^ 64 ->
  Forall (fun p => lenN p + 16 <= 2 ^ 30) ps ->
  (forall i p, In p ps -> e_handler SE i true p = HOk (f p) /\ f p <> [] /\ lenN (f p) + 16 <= 2 ^ 30 /\ lenN (f p) <= n) ->
  let '(rs, cs', ss') := attempts C CE SE o ses n ps cs ss in
  Forall2 (fun p r => r = None \/ r = Some (Some (RdOk (f p) true))) ps rs /\
  map snd (s_calls ss') = map snd (s_calls ss) ++ written ps rs /\
  exists new, c_sent cs' = c_sent cs ++ new /\ Forall2 (fun r x => r = None <-> snd x = 0) rs new.
Proof. exact attempts_run. Qed.
Print Assumptions C177_write_again_partial.
(** The first two Writes time out before anything is sent. *)
Definition ex_late : cenv := {|
  ce_end := EndEOF; ce_write := fun i b => if Nat.ltb i 4 then (0, true) else (lenN b, false); ce_deadline := fun _ => true;
  ce_fetch := fun _ => None; ce_rand := None; ce_gen := None |}.
Example C177_partial_example : all_or_nothing ex_late /\ paired toy ex_ses ex_host [] (cst0 []) ex_ss /\
  let '(rs, _, ss') := attempts toy ex_late ex_SE ex_opts ex_ses 100 [[x41]; [x41]; [x41]; [x42]] (cst0 []) ex_ss in
  rs = [None; None; Some (Some (RdOk [x41; x21] true)); Some (Some (RdOk [x42; x21] true))] /\
  map snd (s_calls ss') = [[x41]; [x42]].
Proof.
  split; [split; [|reflexivity]|split; [apply long_reply_example|vm_compute; auto]].
  intros i b. cbn [ce_write ex_late]. destruct (Nat.ltb i 4); [left; reflexivity|right; split; [apply N.le_refl|reflexivity]].
Qed.
