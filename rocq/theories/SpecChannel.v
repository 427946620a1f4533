(** Clients and the server together: which Write a call of the handler serves. *)
From Verif Require Import Bytes Parser Crypto Kdf Wire WireSeq Server ServerSeq SpecServer Keys Client ClientSeq SpecClient
  Conc SpecConc ClientConc SpecClientConc.

(** The encryption key of the server's session [p] and of the clients' session [s]. *)
Definition server_key (C : Crypto) (g : gst) (p : nat) (key : bytes) : Prop :=
  exists j sec, event g j (EvNew p sec) /\ new_gcm C sec = Some key.
Definition client_key (C : Crypto) (W : world) (s : nat) (key : bytes) : Prop :=
  client_gcm C (cs_secret (w_secret W s)) = Some key.

(** No two sessions of the server have the same encryption key. *)
Definition distinct_server_keys (C : Crypto) (g : gst) : Prop :=
  forall p p' key, server_key C g p key -> server_key C g p' key -> p = p'.

(** Operation [j] is a Write of [m] on client [cl] that got the counter [c]. *)
Definition wrote_by (k : kst) (j cl : nat) (c : N) (m : bytes) : Prop :=
  started k j cl (OpWrite m) /\ kevent k j (KSetLast cl c).

(** Nobody forged a request: the ciphertext of every request whose message reached
    the handler under a key of a client's session was made by some client, with
    this key and nonce. Nobody forged a reply: what a Read accepted was made by
    the server, with this key and nonce. *)
Definition requests_unforged (C : Crypto) (W : world) (k : kst) (g : gst) : Prop :=
  forall i p c reply m r key s, event g i (EvHandler p c reply m r) -> server_key C g p key ->
  used W k s -> client_key C W s key ->
  exists j s' c' m', kevent k j (KSeal s' c' key (x00 :: repeat x00 3 ++ be_enc 8 c) m'
                                  (gcm_seal C key (x00 :: repeat x00 3 ++ be_enc 8 c) m)).
Definition replies_unforged (C : Crypto) (W : world) (k : kst) (g : gst) : Prop :=
  forall cl c ct m key, accepted C W k cl c ct m -> client_key C W (w_session W cl) key ->
  exists i p c' m', event g i (EvSeal p c' key (x01 :: repeat x00 3 ++ be_enc 8 c) m' ct).

(** The [n]-th event of the server is a call of the handler that serves Write [j]:
    same key, same counter, same message. *)
Definition serves (C : Crypto) (W : world) (k : kst) (g : gst) (n j : nat) : Prop :=
  exists i p c reply m r key cl, nth_error (g_trace g) n = Some (i, EvHandler p c reply m r) /\
    server_key C g p key /\ client_key C W (w_session W cl) key /\ wrote_by k j cl c m.
