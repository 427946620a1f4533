(** Vocabulary for stating what a server does under concurrency. *)
From Coq Require Import Strings.String.
From Verif Require Import Bytes Parser Crypto Kdf Wire WireSeq Server ServerSeq SpecServer Conc.

(** The octets of a Process request (any version, any reserved bits). *)
Definition process_octets (rq : bytes) (reply : bool) (id : bytes) (c : N) (ct : bytes) : Prop :=
  exists b0 fb, rq = b0 :: fb :: id ++ be_enc 8 c ++ be_enc 8 (lenN ct) ++ ct /\
    length id = 16%nat /\ c < two64 /\ lenN ct <= max_message_size /\
    N.land (b2n b0) 15 = 3 /\ reply = (128 <=? b2n fb).
(** The octets of a Setup request. *)
Definition setup_octets (C : Crypto) (rq : bytes) (id pub : bytes) : Prop :=
  exists b0 raw, rq = b0 :: id ++ be_enc 4 (lenN raw) ++ raw /\
    length id = 16%nat /\ N.land (b2n b0) 15 = 2 /\ pkix_parse C raw = Some (PkX25519 pub).


(** The octets instance [i] took from the network so far, and its remote host. *)
Definition request_of (g : gst) (i : nat) : bytes := got (loc i (g_trace g)).
Definition host_of (g : gst) (i : nat) : option bytes :=
  match g_inst g i with Some v => i_host v | None => None end.

(** [event g i x]: instance [i] did [x]. *)
Definition event (g : gst) (i : nat) (x : ev) : Prop := In (i, x) (g_trace g).

(** Session [p] was created by instance [j], which received a Setup with [id]
    and the key [pub] from [host], drew [sk] and computed [sec]. *)
Definition set_up (C : Crypto) (g : gst) (p j : nat) (host id pub sk sec : bytes) : Prop :=
  host_of g j = Some host /\ setup_octets C (request_of g j) id pub /\
  event g j (EvGen (Some sk)) /\ event g j (EvNew p sec) /\ x_dh C sk pub = Some sec.

(** The texts of the server's error responses. *)
Definition error_texts : list (N * bytes) := [
  (code_server_error, msg_send); (code_malformed, msg_parse); (code_malformed, msg_genkey);
  (code_malformed, msg_shared); (code_server_error, msg_host); (code_server_error, msg_store);
  (code_server_error, msg_sign); (code_unknown_client, msg_unknown); (code_replay, msg_replay);
  (code_server_error, msg_derive); (code_server_error, msg_decrypt); (code_server_error, msg_handle);
  (code_server_error, msg_fetch); (code_server_error, msg_encode)].
