(** Vocabulary for stating what clients do under concurrency. *)
From Verif Require Import Bytes Parser Crypto Kdf Wire WireSeq Server Keys Client ClientSeq SpecClient ClientConc.

Definition kloc (i : nat) (tr : list (nat * kev)) : list kev :=
  map snd (filter (fun x => Nat.eqb (fst x) i) tr).
Fixpoint kgot (h : list kev) : bytes :=
  match h with
  | [] => []
  | KRead b :: h' => kgot h' ++ b
  | _ :: h' => kgot h'
  end.

(** [kevent k i x]: instance [i] did [x]. [started k i cl o]: it is operation [o]
    on client [cl]. [response_of k i]: the octets it took from the network. *)
Definition kevent (k : kst) (i : nat) (x : kev) : Prop := In (i, x) (k_trace k).
Definition started (k : kst) (i : nat) (cl : nat) (o : op) : Prop :=
  exists v, k_inst k i = Some v /\ o_client v = cl /\ o_op v = o.
Definition finished (k : kst) (i : nat) (r : rd_result + wr_result) : Prop :=
  exists v, k_inst k i = Some v /\ o_prog v = CRet r.
Definition response_of (k : kst) (i : nat) : bytes := kgot (kloc i (k_trace k)).

(** How often the session's counter was incremented. *)
Fixpoint adds (s : nat) (tr : list (nat * kev)) : N :=
  match tr with
  | [] => 0
  | (_, KAdd s' _) :: tr' => if Nat.eqb s' s then 1 + adds s tr' else adds s tr'
  | _ :: tr' => adds s tr'
  end.

(** The counter last recorded on client [cl]. *)
Fixpoint last_set (cl : nat) (tr : list (nat * kev)) : N :=
  match tr with
  | [] => 0
  | (_, KSetLast cl' c) :: tr' => if Nat.eqb cl' cl then c else last_set cl tr'
  | _ :: tr' => last_set cl tr'
  end.

(** Message [p] was written on client [cl] and got the counter [c]. *)
Definition wrote (k : kst) (cl : nat) (c : N) (p : bytes) : Prop :=
  exists i, started k i cl (OpWrite p) /\ kevent k i (KSetLast cl c).

(** A Read on [cl] received a response with counter [c] and a ciphertext that
    decrypts to [m] in the direction to the client, while [c] was the counter last
    recorded on [cl]. *)
Definition accepted (C : Crypto) (W : world) (k : kst) (cl : nat) (c : N) (ct m : bytes) : Prop :=
  exists i n key, started k i cl (OpRead n) /\ process_response_octets (response_of k i) c ct /\
    (exists a b, k_trace k = a ++ (i, KGetLast cl c) :: b /\ c = last_set cl b) /\
    client_gcm C (cs_secret (w_secret W (w_session W cl))) = Some key /\
    gcm_open C key (x01 :: repeat x00 3 ++ be_enc 8 c) ct = Some m.

(** No two sessions on which anything was started have the same encryption key. *)
Definition used (W : world) (k : kst) (s : nat) : Prop := exists i cl o, started k i cl o /\ s = w_session W cl.
Definition distinct_keys (C : Crypto) (W : world) (k : kst) : Prop := forall s s' key, used W k s -> used W k s' ->
  client_gcm C (cs_secret (w_secret W s)) = Some key ->
  client_gcm C (cs_secret (w_secret W s')) = Some key -> s = s'.
