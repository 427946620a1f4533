(** Property C174: calling Read again after a timeout. *)
From Verif Require Import Bytes Parser Crypto Wire WireSeq Toy Replay Server ServerSeq ServerExamples Keys Client ClientSeq SpecClient ClientExamples
  Timed SpecTimed SpecRetry RetryProofs.

(** C174 is refuted if part of the reply had arrived: the octets that Read took
    before the deadline are gone, and the next Read takes what is left for a new
    response. Here these are octets of the ciphertext that read as an error; it
    is reported although the server did not send it. *)
Theorem C174_read_again_refuted : forall C E delay rto wto reply ses, (forall i, delay i = 0) -> 0 < rto -> c_works E ->
  forall n n2 t s ctr a code msg b rest e l1 l2, c_buf s = [] -> ctr < 2 ^ 64 -> code < 2 ^ 32 ->
  lenN (a ++ enc_response (RsError code msg) ++ b) <= 2 ^ 30 ->
  c_in s = enc_response (RsProcess ctr (a ++ enc_response (RsError code msg) ++ b)) ++ rest ->
  t_arr t = e ++ l1 ++ l2 -> length e = (17 + length a)%nat -> length l1 = length (enc_response (RsError code msg)) ->
  Forall (fun x => x < t_now t + rto) e -> Forall (fun x => t_now t + rto <= x < t_now t + rto + rto) l1 ->
  fst (timed_reads C E delay rto wto reply ses [n; n2] t s) = [reads_timeout; Some (RdErr (RdRemote code msg))].
Proof. exact retry_reinterpreted. Qed.
Print Assumptions C174_read_again_refuted.
(** The genuine reply to message 1, decrypted by the client if it arrives in time;
    of it 18 octets arrive before the deadline. *)
Definition again_m : bytes := [x41] ++ enc_response (RsError 7 [x21]) ++ [x42].
Definition again_t (k : nat) (x : N) : tio :=
  {| t_now := 0; t_arr := repeat 0 k ++ repeat x (length (ex_reply again_m) - k); t_eof := 99; t_rd := None; t_wd := None; t_n := 0 |}.
Example C174_example :
  (exists a b, ex_reply again_m = enc_response (RsProcess 1 (a ++ enc_response (RsError 7 [x21]) ++ b)) /\ length a = 1%nat) /\
  fst (timed_reads toy ex_CE (fun _ => 0) 5 5 true ex_ses [99; 99] (again_t 18 5) (ex_cs (ex_reply again_m))) =
    [reads_timeout; Some (RdErr (RdRemote 7 [x21]))] /\
  fst (timed_reads toy ex_CE (fun _ => 0) 5 5 true ex_ses [99] (again_t 18 4) (ex_cs (ex_reply again_m))) = [Some (RdOk again_m true)].
Proof.
  split; [|vm_compute; split; reflexivity].
  exists [x41], ([x42] ++ dropN 16 (gcm_seal toy ex_ckey (gcm_nonce dir_s2c 1) again_m)). split; vm_compute; reflexivity.
Qed.

(** What holds: Read can be called again, any number of times, as long as nothing
    of the reply has arrived; the Read during which it arrives returns it. Missing:
    replies of which a part arrives in time. Time passes only while waiting. *)
Theorem C174_read_again_partial : forall C E delay rto wto reply ses, (forall i, delay i = 0) -> 0 < rto -> c_works E -> CryptoLaws C ->
  forall key m ns, client_gcm C (cs_secret ses) = Some key -> m <> [] -> lenN m + 16 <= 2 ^ 30 ->
  forall n t s rest l arr, c_buf s = [] -> c_last s < 2 ^ 64 ->
  c_in s = enc_response (RsProcess (c_last s) (gcm_seal C key (x01 :: repeat x00 3 ++ be_enc 8 (c_last s)) m)) ++ rest ->
  t_arr t = l ++ arr -> length l = (33 + length m)%nat ->
  Forall (fun a => t_now t + lenN ns * rto <= a < t_now t + lenN ns * rto + rto) l ->
  exists t' s', timed_reads C E delay rto wto reply ses (ns ++ [n]) t s =
      (map (fun _ => reads_timeout) ns ++ [Some (RdOk (takeN n m) (lenN m <=? n))], (t', s')) /\
    c_in s' = rest /\ c_buf s' = dropN n m /\ t_arr t' = arr.
Proof. exact patient_reads. Qed.
Print Assumptions C174_read_again_partial.
Example C174_partial_example :
  ex_reply again_m = enc_response (RsProcess 1 (gcm_seal toy ex_ckey (x01 :: repeat x00 3 ++ be_enc 8 1) again_m)) /\
  length (t_arr (again_t 0 12)) = (33 + length again_m)%nat /\
  fst (timed_reads toy ex_CE (fun _ => 0) 5 5 true ex_ses [4; 4; 4] (again_t 0 12) (ex_cs (ex_reply again_m))) =
    [reads_timeout; reads_timeout; Some (RdOk (takeN 4 again_m) false)].
Proof. vm_compute. repeat split; reflexivity. Qed.
