(** A program that dials again and whose address changes. *)
From Verif Require Import Bytes Parser Crypto Toy Wire WireSeq Replay SpecReplay Server ServerSeq SpecServer ServerProps MultiConn SpecMulti ServerExamples Keys Client
  ClientSeq SpecClient SpecE2E ClientExamples Udp SpecUdp UdpThms SpecUdpLoss SpecUdpDup SetupTwiceExamples SpecRoam SpecRestart SpecPersist PersistExamples
  SpecWander WanderProofs WanderExamples.

(** C186, with the address of the program changing as well. The ids that the dials
    draw are unknown to the server and do not meet under the session hash at the
    hosts the program visits. *)
Theorem C186_moving_program : forall C CEs SE hostof chunk send me srv o host n chost ssk f csk rnd l sn ss, CryptoLaws C ->
  (forall k, undisturbed C (CEs k) SE chost host (csk k) (rnd k) ssk) ->
  (forall i b, lenN b <= 65507 -> send i b = true) ->
  (forall i m sig, e_sign SE i SHA512 m = KOk sig -> lenN sig + 54 <= 65507) -> co_reply o = true ->
  wf ss -> n_closed sn = false -> n_in sn = [] -> lenN (words l) < 2 ^ 64 ->
  (forall a, In a (me :: places l) -> hostof a <> None) ->
  (forall a h k, In a (me :: places l) -> hostof a = Some h -> (k <= length l)%nat -> known C ss h (uuid_of (rnd k)) = None) ->
  (forall a a' h h' j k, In a (me :: places l) -> In a' (me :: places l) -> hostof a = Some h -> hostof a' = Some h' -> (j <= length l)%nat -> (k <= length l)%nat ->
     session_key C h (uuid_of (rnd j)) = session_key C h' (uuid_of (rnd k)) -> h = h' /\ j = k) ->
  Forall (fun p => lenN p + 50 <= 65507 /\ (forall i, e_handler SE i true p = HOk (f p)) /\ f p <> [] /\ lenN (f p) + 33 <= 65507 /\ lenN (f p) <= n) (words l) ->
  let '(rs, (dials, ss')) := wander C CEs SE hostof chunk send srv o host n 0 me None l sn ss in
  rs = map (fun p => Some (RdOk (f p) true)) (words l) /\ map snd (s_calls ss') = map snd (s_calls ss) ++ words l /\ (dials <= 1 + upsets l)%nat.
Proof. exact wandering. Qed.
Print Assumptions C186_moving_program.
(** Away, back, a restart, and away again. *)
Example C186_moving_example :
  (forall k, undisturbed toy (pe_CE k) tw_SE ex_host ex_name ex_csk (pe_rnd k) ex_sign_key) /\
  (forall a, In a ([x01] :: places pe_script) -> pe_hostof a <> None) /\
  (forall h k, known toy (sst0 []) h (uuid_of (pe_rnd k)) = None) /\
  (forall a a' h h' j k, In a ([x01] :: places pe_script) -> In a' ([x01] :: places pe_script) -> pe_hostof a = Some h -> pe_hostof a' = Some h' ->
     (j <= length pe_script)%nat -> (k <= length pe_script)%nat ->
     session_key toy h (uuid_of (pe_rnd j)) = session_key toy h' (uuid_of (pe_rnd k)) -> h = h' /\ j = k) /\
  words pe_script = [[x41]; [x42]; []; [x43]; [x44]] /\ upsets pe_script = 5%nat /\
  (let '(rs, (dials, s')) := wander toy pe_CE tw_SE pe_hostof (fun _ => 3) (fun _ b => lenN b <=? 65507) [x02] ex_opts ex_name 100 0 [x01] None pe_script (ex_net []) (sst0 []) in
   (rs, map snd (s_calls s'), dials)) = (map (fun p => Some (RdOk (p ++ [x21]) true)) (words pe_script), words pe_script, 4%nat).
Proof.
  split; [exact pe_undisturbed_at|]. split; [intros a _; unfold pe_hostof; destruct (bytes_eqb a [x01]); discriminate|].
  split; [reflexivity|]. split; [exact pe_inj|]. split; [reflexivity|]. split; [reflexivity|]. vm_compute. reflexivity.
Qed.
