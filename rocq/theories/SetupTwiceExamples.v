(** Instances for C181. *)
From Coq Require Import Bool.
From Verif Require Import Bytes BytesProofs Parser Crypto Toy Kdf Wire WireSeq Replay Server ServerSeq SpecServer ServerProps ServerProps2 ServerExamples Keys Client
  ClientSeq SpecClient SpecE2E ClientExamples SpecSystem Udp SpecUdp UdpThms SpecUdpLoss SpecUdpDup.

(** The server of [ex_SE], with another key pair each time. *)
Definition tw_SE : senv := {|
  e_host := Some ex_host; e_end := EndEOF;
  e_write := fun _ b => (lenN b, None);
  e_gen := fun i => Some (repeat (n2b (N.of_nat (5 + i mod 200))) 32);
  e_store := fun _ => true;
  e_handler := fun _ _ m => HOk (m ++ [x21]);
  e_sign := fun _ h m => sign toy ex_sign_key [] h m;
  e_fetch := fun _ => fetch_key toy ex_sign_key;
  e_quit := fun _ => false |}.
Definition tw_q : bytes := enc_request (RqSetup (uuid_of ex_rnd) (x_pub toy ex_csk)).
Definition tw_server : list bytes * (unet * sst) :=
  serve_each toy tw_SE ex_hostof (fun _ => 3) (fun _ b => lenN b <=? 65507) [x01] [tw_q; tw_q] (ex_net []) (sst0 []).
(** The key pairs of the two answers. *)
Definition tw_key (i : nat) : bytes := match e_gen tw_SE i with Some k => k | None => [] end.
Definition tw_secret (i : nat) : bytes := match x_dh toy ex_csk (x_pub toy (tw_key i)) with Some k => k | None => [] end.
Definition tw_gcm (i : nat) : bytes := match new_gcm toy (tw_secret i) with Some k => k | None => [] end.
(** The session of a client that took an answer. *)
Definition tw_ses (i : nat) : csession := {| cs_secret := tw_secret i; cs_id := uuid_of ex_rnd |}.
Definition tw_run (i : nat) (late : list bytes) (ps : list bytes) :=
  let '(out, (sn, ss)) := tw_server in
  lossy toy ex_CE tw_SE ex_hostof (fun _ => 3) (fun _ b => lenN b <=? 65507) [x01] [x02] ex_opts (tw_ses i) 100
    (map (fun p => (p, Arrives, 0%nat)) ps) (new_udp false, ex_net (map (pair [x02]) late)) (cst0 []) sn ss.

Lemma tw_gen i : exists sk, e_gen tw_SE i = Some sk /\ x_dh toy sk (x_pub toy ex_csk) <> None.
Proof.
  eexists. split; [reflexivity|]. cbn [x_dh toy]. change (bytes_eqb (x_pub toy ex_csk) (repeat x00 32)) with false. cbv iota.
  assert (H : Forall (fun j => bytes_eqb (pad32 (repeat (n2b (N.of_nat (5 + j))) 32)) (repeat x00 32) = false) (seq 0 200)).
  { apply Forall_forall. intros j Hj. apply negb_true_iff. revert j Hj. apply forallb_forall. vm_compute. reflexivity. }
  rewrite Forall_forall in H. rewrite H; [discriminate|]. apply in_seq. pose proof (Nat.mod_upper_bound i 200). lia.
Qed.
Lemma tw_example :
  let id := uuid_of ex_rnd in let pub := x_pub toy ex_csk in
  request_ok (RqSetup id pub) /\ (forall i, exists sk, e_gen tw_SE i = Some sk /\ x_dh toy sk pub <> None) /\
  (forall i m, exists sig, e_sign tw_SE i SHA512 m = KOk sig /\ lenN sig + 54 <= 65507) /\ wf (sst0 []) /\
  let '(out, (_, ss1)) := serve_each toy tw_SE ex_hostof (fun _ => 3) (fun _ b => lenN b <=? 65507) [x01] (repeat tw_q 3) (ex_net []) (sst0 []) in
  map (fun b => takeN 1 (dropN 17 b)) out = [[x05]; [x09]; [x0d]] /\ s_calls ss1 = [] /\
  known toy ss1 ex_host id = Some {| ses_secret := tw_secret 8; ses_win := new_window |}.
Proof.
  split; [vm_compute; auto|]. split; [exact tw_gen|]. split; [|split; [apply wf_init|vm_compute; repeat split]].
  intros i m. eexists. split; [reflexivity|]. cbn [ed_sign toy]. rewrite lenN_app. unfold pad32. cbn [sha512 toy]. rewrite !be_enc_lenN. discriminate.
Qed.
(** The client dials; [n] copies of its Setup request arrive, and of the answers
    those that [keep] leaves reach it. *)
Definition tw_dial (n : nat) (keep : list bytes -> list bytes) (ps : list bytes) :=
  let '(out, (sn, ss)) := serve_each toy tw_SE ex_hostof (fun _ => 3) (fun _ b => lenN b <=? 65507) [x01] (repeat tw_q n) (ex_net []) (sst0 []) in
  let '(h, ((u, net), cs)) := ucrun toy ex_CE (fun _ => 3) (fun _ b => lenN b <=? 65507) (handshake toy (Some ex_name))
    (new_udp false, ex_net (map (pair [x02]) (keep out))) (cst0 []) in
  match h with
  | Some (inr ses) =>
      let '(res, (_, (_, ss2))) := lossy toy ex_CE tw_SE ex_hostof (fun _ => 3) (fun _ b => lenN b <=? 65507) [x01] [x02] ex_opts ses 100
        (map (fun p => (p, Arrives, 0%nat)) ps) (u, net) cs sn ss in
      Some (bytes_eqb (cs_id ses) (uuid_of ex_rnd), res, s_calls ss2)
  | _ => None
  end.
Lemma tw_undisturbed : undisturbed toy ex_CE tw_SE ex_host ex_name ex_csk ex_rnd ex_sign_key /\
  forall i m sig, e_sign tw_SE i SHA512 m = KOk sig -> lenN sig + 54 <= 65507.
Proof.
  split.
  - destruct ex_undisturbed as [U1 U2 U3 U4 U5 U6 U7 U8 U9 U10]. split; try assumption; try reflexivity.
    exact tw_gen.
  - intros i m sig H. destruct tw_example as (_ & _ & E & _). destruct (E i m) as (sig' & X & Y). congruence.
Qed.
