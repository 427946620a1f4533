(** A concrete client and server for examples: toy cryptography, an Ed25519
    signing key, a handler that appends one octet. *)
From Coq Require Import Strings.String.
From Verif Require Import Bytes BytesProofs Parser Crypto Kdf Wire WireSeq Toy Replay Server ServerSeq SpecServer ServerProps ServerExamples
  Keys Client ClientSeq SpecClient SpecE2E.

Definition ex_sign_key : privkey := SkEd25519 [x07].
Definition ex_name : bytes := str "example.org".
Definition ex_rnd : bytes := repeat xff 16.
Definition ex_SE : senv := {|
  e_host := Some ex_host; e_end := EndEOF;
  e_write := fun _ b => (lenN b, None);
  e_gen := fun _ => Some ex_ssk;
  e_store := fun _ => true;
  e_handler := fun _ _ m => HOk (m ++ [x21]);
  e_sign := fun _ h m => sign toy ex_sign_key [] h m;
  e_fetch := fun _ => fetch_key toy ex_sign_key;
  e_quit := fun _ => false |}.
Definition ex_CE : cenv := {|
  ce_end := EndEOF; ce_write := fun _ b => (lenN b, false); ce_deadline := fun _ => true;
  ce_fetch := fun _ => match fetch_key toy ex_sign_key with KOk (_, pk) => Some pk | _ => None end;
  ce_rand := Some ex_rnd; ce_gen := Some ex_csk |}.
Definition cst0 (i : bytes) : cst :=
  {| c_in := i; c_step := 0; c_sent := []; c_ctr := 0; c_last := 0; c_buf := []; c_seals := [] |}.
Definition ex_opts : copts := {| co_rto := true; co_wto := true; co_reply := true |}.

Lemma ex_c_works : c_works ex_CE.
Proof. split; [intros; split; [apply N.le_refl|reflexivity]|reflexivity]. Qed.
Lemma ex_undisturbed : undisturbed toy ex_CE ex_SE ex_host ex_name ex_csk ex_rnd ex_sign_key.
Proof.
  split; try reflexivity.
  - apply ex_c_works.
  - split; reflexivity.
  - do 2 eexists. split; reflexivity.
  - intros i b; split; [apply N.le_refl|reflexivity].
  - intros i. exists ex_ssk. split; [reflexivity|vm_compute; discriminate].
  - intros i m. exists []. eexists. split; [reflexivity|]. split; [reflexivity|]. split.
    + cbn. discriminate.
    + cbn [ed_sign toy]. rewrite lenN_app. unfold pad32. cbn [sha512 toy]. rewrite !be_enc_lenN. discriminate.
Qed.

Definition ex_ses : csession :=
  match fst (crun toy ex_CE (handshake toy (Some ex_name))
     (cst0 (sent_by_server (sst0 []) (snd (srun toy ex_SE (conn_body toy)
        (sst0 (enc_request (RqSetup (uuid_of ex_rnd) (x_pub toy ex_csk))))))))) with
  | Some (inr s) => s
  | _ => {| cs_secret := []; cs_id := [] |}
  end.
Definition ex_ss : sst := snd (srun toy ex_SE (conn_body toy) (sst0 (enc_request (RqSetup (uuid_of ex_rnd) (x_pub toy ex_csk))))).
Definition ex_ckey : bytes := match client_gcm toy (cs_secret ex_ses) with Some k => k | None => [] end.
(** A client that sent message 1 and the reply [m] waiting, followed by [rest]. *)
Definition ex_reply (m : bytes) : bytes :=
  enc_response (RsProcess 1 (gcm_seal toy ex_ckey (gcm_nonce dir_s2c 1) m)).
Definition ex_cs (i : bytes) : cst :=
  {| c_in := i; c_step := 0; c_sent := []; c_ctr := 1; c_last := 1; c_buf := []; c_seals := [] |}.
Lemma ex_reply_octets m : lenN m + 16 <= 2 ^ 30 ->
  process_response_octets (ex_reply m) 1 (gcm_seal toy ex_ckey (gcm_nonce dir_s2c 1) m).
Proof.
  intros H. exists x80. split; [reflexivity|]. split; [vm_compute; discriminate|]. split; [reflexivity|].
  rewrite (gcm_seal_len _ toy_laws). exact H.
Qed.
