(** Vocabulary for what remains true of expectations that fail in general. *)
From Verif Require Import Bytes Crypto Wire WireSeq Client ClientConc SpecClientConc SecretMgr Life.

(** No operation on [k] is in progress in this goroutine. *)
Definition off (k : bytes) (p : mpc) : Prop :=
  match p with
  | MIdle | MpStored _ _ | MpLoaded _ _ => True
  | MpStore k' _ | MpStore2 k' _ _ | MpLoad k' | MpLoad2 k' _ | MpLoad3 k' _ _ => k' <> k
  end.
(** No other goroutine than [t] is in the middle of an operation on [k]. *)
Definition busy_free (k : bytes) (s : mstate) (t : nat) : Prop := forall u, u <> t -> off k (ms_pc s u).

(** [n] is the place in the trace where a request with counter [c] of session [s]
    was handed to the network. *)
Definition request_at (W : world) (k : kst) (s : nat) (n : nat) (c : N) : Prop := exists i m cl p ct,
  nth_error (k_trace k) n = Some (i, KWrite (enc_request (RqProcess (cs_id (w_secret W s)) c ct (co_reply (w_opts W cl)))) m) /\
  started k i cl (OpWrite p) /\ w_session W cl = s /\ c < 2 ^ 64.


(** Datagrams received by the listener [a]. *)
Definition dgrams_of (a : nat) (tr : list (nat * lev)) : nat :=
  length (filter (fun x => Nat.eqb (fst x) a && match snd x with EDgram => true | _ => false end) tr).
