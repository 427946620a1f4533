(** Two clients of different hosts, and two clients of one host, at the same
    server. *)
From Coq Require Import Strings.String.
From Verif Require Import Bytes BytesProofs Parser Crypto Kdf Wire WireSeq Toy Replay Server ServerSeq Keys ServerProps ServerExamples
  MultiConn SpecMulti MultiProofs Base64.

Definition ex_mem : mem :=
  {| m_map := fun _ => None; m_heap := fun _ => {| ses_secret := []; ses_win := new_window |}; m_next := 0 |}.

Lemma ex_mem_sane : sane ex_mem.
Proof. split; intros; discriminate. Qed.

(** Another client, [x08...], same keys. *)
Definition ex_id2 : bytes := repeat x08 16.
Definition ex_input (i : nat) : bytes :=
  match i with
  | 0%nat => enc_request ex_setup ++ enc_request (ex_process 1 [x41] true)
  | 1%nat => enc_request (RqSetup ex_id2 (x_pub toy ex_csk)) ++
             enc_request (RqProcess ex_id2 1 (gcm_seal toy ex_key (gcm_nonce dir_c2s 1) [x42]) true)
  | _ => []
  end.

(** The two take turns. *)
Fixpoint ex_turns (n : nat) : list act :=
  match n with O => [] | S n => AConn 0 :: AConn 1 :: ex_turns n end.

Definition ex_K (k : bytes) : bool := bytes_eqb k (session_key toy ex_host ex_id).

Fixpoint withinb (C : Crypto) (E : nat -> senv) (tcp : nat -> bool) (G : nat -> bool) (K : bytes -> bool)
    (sched : list act) (t : mst) : bool :=
  match sched with
  | [] => true
  | a :: l =>
      match a with
      | AConn i => match next_key (c_prog (t_conn t i)) with Some k => Bool.eqb (K k) (G i) | None => true end
      | ACollect _ => true
      end && withinb C E tcp G K l (mstep C E tcp t a)
  end.

Lemma withinb_within C E tcp G K l : forall t, withinb C E tcp G K l t = true -> within C E tcp G K l t.
Proof.
  induction l as [|a l IH]; intros t H; [exact I|]. cbn [withinb] in H. apply andb_prop in H.
  destruct H as [H1 H2]. split; [|apply IH, H2]. destruct a as [i|k]; [|exact I]. cbn.
  intros k Hk. rewrite Hk in H1. apply Bool.eqb_prop, H1.
Qed.

Lemma two_ids : 
  let t := starting toy (fun _ => true) ex_input ex_mem in
  within toy (fun _ => ex_E) (fun _ => true) (fun j => Nat.eqb j 0) ex_K (ex_turns 40) t /\
  length (c_sent (t_conn (mrun toy (fun _ => ex_E) (fun _ => true) (ex_turns 40) t) 0)) = 2%nat /\
  seen (c_calls (t_conn (mrun toy (fun _ => ex_E) (fun _ => true) (ex_turns 40) t) 0)) = [(1, true, [x41])] /\
  seen (c_calls (t_conn (mrun toy (fun _ => ex_E) (fun _ => true) (ex_turns 40) t) 1)) = [(1, true, [x42])].
Proof.
  cbv zeta. split; [apply withinb_within; vm_compute; reflexivity|]. repeat split; vm_compute; reflexivity.
Qed.

(** ** Different hosts *)
Definition ex_host2 : bytes := str "20.0.0.1".
Definition ex_E2 (i : nat) : senv := {|
  e_host := Some (if Nat.eqb i 0 then ex_host else ex_host2); e_end := e_end ex_E; e_write := e_write ex_E;
  e_gen := e_gen ex_E; e_store := e_store ex_E; e_handler := e_handler ex_E; e_sign := e_sign ex_E;
  e_fetch := e_fetch ex_E; e_quit := e_quit ex_E |}.

(** With the toy hash, the twelfth letter of an entry's key tells the hosts apart. *)
Definition ex_K2 (k : bytes) : bool :=
  match nth_error k 11 with Some c => b2n c =? b2n (b64_char 49) | None => false end.

Lemma toy_key hst id : length hst = 8%nat -> lenN id = 16 ->
  session_key toy hst id = base64 (repeat x00 7 ++ x01 :: hst ++ id).
Proof.
  intros Hh Hid. unfold session_key. f_equal. cbn [sha256 toy].
  rewrite <- (be_enc_dec_len 32 (repeat x00 7 ++ x01 :: hst ++ id)); [reflexivity|].
  rewrite app_length, repeat_length. cbn [length]. rewrite app_length, Hh. unfold lenN in Hid. lia.
Qed.

Lemma two_hosts j hst id : e_host (ex_E2 j) = Some hst -> lenN id = 16 ->
  ex_K2 (session_key toy hst id) = Nat.eqb j 0.
Proof.
  cbn [e_host ex_E2]. intros H Hid. injection H as <-.
  rewrite toy_key; [|destruct (Nat.eqb j 0); reflexivity|exact Hid].
  destruct (Nat.eqb j 0); reflexivity.
Qed.

Lemma two_hosts_run :
  let t := mrun toy ex_E2 (fun _ => true) (ex_turns 40) (starting toy (fun _ => true) (fun _ => ex_input 0) ex_mem) in
  status_of true (t_conn t 0) = Ended /\ status_of true (t_conn t 1) = Ended /\
  seen (c_calls (t_conn t 0)) = [(1, true, [x41])] /\ seen (c_calls (t_conn t 1)) = [(1, true, [x41])].
Proof. cbv zeta. repeat split; vm_compute; reflexivity. Qed.

Lemma no_collect n k : ~ In (ACollect k) (ex_turns n).
Proof. induction n as [|n IH]; cbn; [tauto|]. intros [H|[H|H]]; [discriminate|discriminate|exact (IH H)]. Qed.

Lemma alone_example : sane ex_mem /\
  (forall j hst id, e_host (ex_E2 j) = Some hst -> lenN id = 16 -> ex_K2 (session_key toy hst id) = Nat.eqb j 0) /\
  (forall k, In (ACollect k) (ex_turns 40) -> ex_K2 k = false).
Proof.
  split; [exact ex_mem_sane|]. split; [exact two_hosts|]. intros k Hk. exfalso. exact (no_collect _ _ Hk).
Qed.

(** ** A handler that panics *)
Definition ex_E3 : senv := {|
  e_host := e_host ex_E; e_end := e_end ex_E; e_write := e_write ex_E;
  e_gen := e_gen ex_E; e_store := e_store ex_E;
  e_handler := fun _ _ m => if bytes_eqb m [x42] then HPanic else HOk m;
  e_sign := fun k h m => Keys.sign toy (SkEd25519 ex_ssk) [] h m;
  e_fetch := fun _ => Keys.fetch_key toy (SkEd25519 ex_ssk); e_quit := e_quit ex_E |}.
Lemma ex_crash :
  let t := mrun toy (fun _ => ex_E3) (fun _ => true) (ex_turns 40) (starting toy (fun _ => true) ex_input ex_mem) in
  status_of true (t_conn t 0) = Ended /\ status_of true (t_conn t 1) = Crashed /\
  seen (c_calls (t_conn t 0)) = [(1, true, [x41])] /\ seen (c_calls (t_conn t 1)) = [(1, true, [x42])].
Proof. cbv zeta. repeat split; vm_compute; reflexivity. Qed.
