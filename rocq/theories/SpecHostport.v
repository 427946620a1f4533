(** Vocabulary for addresses, certificates and key files. *)
From Verif Require Import Bytes Crypto Hostport.

Definition none_of (bad : list byte) (s : bytes) : Prop := forall c, In c s -> ~ In c bad.
(** The two forms of an address: "host:port" and "[host]:port". *)
Definition hostport_of (hp h p : bytes) : Prop :=
  (hp = h ++ [x3a] ++ p /\ none_of [x3a; x5b; x5d] h /\ none_of [x3a; x5b; x5d] p) \/
  (hp = [x5b] ++ h ++ [x5d; x3a] ++ p /\ none_of [x5b; x5d] h /\ none_of [x3a; x5b; x5d] p).

Definition valid_at (c : cert) (t : Z) : Prop := (ct_not_before c <= t <= ct_not_after c)%Z.
(** A TLS environment: dialling yields at least one certificate, of a window that
    is not empty, and the clock does not go back. *)
Definition tls_sane (E : tls_env) : Prop :=
  (forall h p, te_dial E h p <> Some []) /\ (te_now E 0 <= te_now E 1)%Z /\
  forall h p c cs, te_dial E h p = Some (c :: cs) -> (ct_not_before c <= ct_not_after c)%Z.

(** What a client hears from this fetcher: a key, or an error. *)
Definition tls_answers (T : tls_env) (port : N) (h : bytes) : option pubkey :=
  match tls_fetch T port h with TlsOk k => Some k | _ => None end.

(** Key types that the library signs and verifies with. *)
Definition supported (pk : pubkey) : Prop :=
  (exists n e, pk = PkRSA n e) \/ (exists c x y, pk = PkECDSA c x y) \/ (exists k, pk = PkEd25519 k /\ length k = 32%nat).
