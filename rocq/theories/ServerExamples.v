(** A concrete server for examples: toy cryptography, an echoing handler. *)
From Coq Require Import Strings.String.
From Verif Require Import Bytes Parser Crypto Kdf Wire WireSeq Toy Replay Server ServerSeq ServerProps.

Definition ex_host : bytes := str "10.0.0.1".
Definition ex_id : bytes := repeat x07 16.
Definition ex_csk : bytes := repeat x05 32.
Definition ex_ssk : bytes := repeat x09 32.

Definition ex_env (handler : hres) (sign : kres bytes) : senv := {|
  e_host := Some ex_host; e_end := EndEOF;
  e_write := fun _ b => (lenN b, None);
  e_gen := fun _ => Some ex_ssk;
  e_store := fun _ => true;
  e_handler := fun _ _ m => match handler with HOk o => HOk (m ++ o) | x => x end;
  e_sign := fun _ _ _ => sign;
  e_fetch := fun _ => KOk (3, PkEd25519 (repeat x02 32));
  e_quit := fun _ => false |}.
Definition ex_E : senv := ex_env (HOk [x21]) (KOk [x99]).

Definition ex_setup : request := RqSetup ex_id (x_pub toy ex_csk).
(** After a Setup from [ex_host]. *)
Definition ex_s (input : bytes) : sst :=
  set_in (snd (srun toy ex_E (conn_body toy) (sst0 (enc_request ex_setup)))) input.
Definition ex_secret : bytes :=
  match x_dh toy ex_ssk (x_pub toy ex_csk) with Some s => s | None => [] end.
Definition ex_key : bytes :=
  match new_gcm toy ex_secret with Some k => k | None => [] end.
(** An authentic request carrying [pt]. *)
Definition ex_process (ctr : N) (pt : bytes) (reply : bool) : request :=
  RqProcess ex_id ctr (gcm_seal toy ex_key (gcm_nonce dir_c2s ctr) pt) reply.
