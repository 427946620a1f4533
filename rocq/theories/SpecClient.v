(** Octet layouts of responses as a client may receive them (any reserved bits),
    and other vocabulary for stating what a client does. *)
From Verif Require Import Bytes Parser Crypto Kdf Wire WireSeq Keys Client ClientSeq.

(** [o] is a successful Setup response with this key, hash octet and signature. *)
Definition setup_response_octets (C : Crypto) (o : bytes) (pub : bytes) (hb : byte) (sig : bytes) : Prop :=
  exists b0 raw, o = b0 :: be_enc 4 (lenN raw) ++ raw ++ [hb] ++ be_enc 4 (lenN sig) ++ sig /\
    128 <= b2n b0 /\ pkix_parse C raw = Some (PkX25519 pub) /\ lenN sig < two32.

(** [o] is a successful Process response with this counter and ciphertext. *)
Definition process_response_octets (o : bytes) (c : N) (ct : bytes) : Prop :=
  exists b0, o = b0 :: be_enc 8 c ++ be_enc 8 (lenN ct) ++ ct /\ 128 <= b2n b0 /\ c < two64 /\
    lenN ct <= max_message_size.

(** The supported hash octets. *)
Definition hash_octet (hb : byte) (h : hash) : Prop :=
  (hb = x02 /\ h = SHA256) \/ (hb = x03 /\ h = SHA384) \/ (hb = x04 /\ h = SHA512).

(** A signature that verifies under [pk]. *)
Definition good_signature (C : Crypto) (pk : pubkey) (h : hash) (content sig : bytes) : Prop :=
  let d := match h with SHA256 => sha256 C content | SHA384 => sha384 C content | _ => sha512 C content end in
  match pk with
  | PkRSA n e => rsa_verify C (n, e) h d sig = true
  | PkECDSA c x y => ecdsa_verify C (c, x, y) d sig = true
  | PkEd25519 k => length k = 32%nat /\ ed_verify C k d sig = true
  | _ => False
  end.

(** The transport takes everything it is given, deadlines can be set. *)
Definition c_works (E : cenv) : Prop :=
  (forall i b, lenN b <= fst (ce_write E i b) /\ snd (ce_write E i b) = false) /\
  (forall i, ce_deadline E i = true).

(** A reply cut into the pieces that buffers of these sizes take, and whether a
    piece ends it. *)
Fixpoint chop (ns : list N) (m : bytes) : list (bytes * bool) :=
  match ns with
  | [] => []
  | n :: ns' => (takeN n m, lenN m <=? n) :: chop ns' (dropN n m)
  end.
Definition total (ns : list N) : N := fold_right N.add 0 ns.

(** Exchanges of one Write and one Read each; the reply [f c] to the request with
    counter [c] arrives right after the request was sent. *)
Fixpoint exchanges (C : Crypto) (E : cenv) (o : copts) (ses : csession) (n : N) (f : N -> bytes) (ps : list bytes) (s : cst)
  : list (option rd_result) :=
  match ps with
  | [] => []
  | p :: ps' =>
      let '(_, s1) := crun C E (client_write C o ses p) s in
      let '(r, s2) := crun C E (client_read C o ses n) (c_set_in s1 (c_in s1 ++ f (c_last s1))) in
      r :: exchanges C E o ses n f ps' s2
  end.
