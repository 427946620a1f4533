(** A client that reads while it writes, over TCP and over UDP. *)
From Coq Require Import Strings.String.
From Verif Require Import Bytes BytesProofs Parser Crypto Kdf Wire WireSeq Toy Server Keys Client ClientSeq SpecClient ClientProps2 ClientExamples
  Udp Duplex SpecDuplex.

Definition two_ps : list bytes := [[x41]; [x42]].
Definition two_ds : list bytes := [[x61; x62]; [x63]].
Definition two_f (c : N) (d : bytes) : bytes := enc_response (RsProcess c (gcm_seal toy ex_ckey (gcm_nonce dir_s2c c) d)).
Definition two_fs : list bytes := [two_f 1 [x61; x62]; two_f 2 [x63]].
Lemma two_octets c d : c < two64 -> lenN d + 16 <= 2 ^ 30 ->
  process_response_octets (two_f c d) c (gcm_seal toy ex_ckey (gcm_nonce dir_s2c c) d).
Proof.
  intros Hc H. exists x80. split; [reflexivity|]. split; [vm_compute; discriminate|]. split; [exact Hc|].
  rewrite (gcm_seal_len _ toy_laws). exact H.
Qed.
Lemma two_answers : answers toy ex_ckey 0 two_ds two_fs.
Proof.
  constructor; [apply (two_octets 1); vm_compute; congruence|]. constructor; [apply (two_octets 2); vm_compute; congruence|]. constructor.
Qed.

Definition cst00 : cst := {| c_in := []; c_step := 0; c_sent := []; c_ctr := 0; c_last := 0; c_buf := []; c_seals := [] |}.
Definition is_ret {A} (p : cprog A) : option A := match p with CRet a => Some a | _ => None end.

Fixpoint rep {A} (n : nat) (l : list A) : list A := match n with O => [] | S n => l ++ rep n l end.
(** The first octet of the first answer is read, then the second message is
    written, then its answer arrives, then the reader goes on. *)
Definition overlap_tcp : list dmove :=
  rep 5 [MWrite] ++ [MAnswer; MArrive 1] ++ rep 3 [MRead] ++ rep 5 [MWrite] ++ [MAnswer; MArrive 68] ++ rep 17 [MRead].
Definition overlap_udp : list dmove :=
  rep 5 [MWrite] ++ [MAnswer] ++ rep 3 [MRead] ++ rep 5 [MWrite] ++ [MAnswer] ++ rep 8 [MRead].

Lemma overlap_tcp_run :
  option_map (fun x => (is_ret (x_rd x), is_ret (x_wr x), c_in (x_cs x), x_chan x))
    (dup_run toy ex_CE overlap_tcp (duplex toy ex_opts ex_ses 9 two_ps two_fs cst00)) =
  Some (Some [RdErr RdCounter; RdOk [x63] true], Some [WrConn 51 false; WrConn 51 false], [], []).
Proof. vm_compute. reflexivity. Qed.
Lemma overlap_udp_run :
  option_map (fun x => (is_ret (z_rd x), is_ret (z_wr x), n_in (snd (z_u x)), z_todo x))
    (udup_run toy ex_CE (fun _ => 512) (fun _ _ => true) [] overlap_udp (uduplex toy ex_opts ex_ses 9 two_ps two_fs cst00)) =
  Some (Some [RdErr (RdParse ELimit); RdErr (RdParse ESize)], Some [WrConn 51 false; WrConn 51 false], [], []).
Proof. vm_compute. reflexivity. Qed.
Lemma option_map_some {A B} (f : A -> B) x b : option_map f x = Some b -> exists a, x = Some a /\ f a = b.
Proof. destruct x as [a|]; cbn; [|discriminate]. intros X. exists a. split; [reflexivity|congruence]. Qed.
Lemma is_ret_some {A} (p : cprog A) a : is_ret p = Some a -> p = CRet a.
Proof. destruct p; cbn; congruence. Qed.

Lemma both_lost : exists C E o ses n key chunk srv ds fs ps s sched z rs,
  CryptoLaws C /\ c_works E /\ client_gcm C (cs_secret ses) = Some key /\ answers C key (c_ctr s) ds fs /\
  Forall (fun d => d <> [] /\ lenN d <= n) ds /\ length ps = length ds /\ c_ctr s + lenN ps < 2 ^ 64 /\ c_buf s = [] /\
  udup_run C E chunk (fun _ _ => true) srv sched (uduplex C o ses n ps fs s) = Some z /\
  z_todo z = [] /\ n_in (snd (z_u z)) = [] /\ z_rd z = CRet rs /\ rs <> [] /\ forall r, In r rs -> exists e, r = RdErr e.
Proof.
  destruct (option_map_some _ _ _ overlap_udp_run) as (z & Hz & Q).
  exists toy, ex_CE, ex_opts, ex_ses, 9, ex_ckey, (fun _ => 512), [], two_ds, two_fs, two_ps, cst00, overlap_udp, z, [RdErr (RdParse ELimit); RdErr (RdParse ESize)].
  split; [exact toy_laws|]. split; [exact ex_c_works|]. split; [vm_compute; reflexivity|]. split; [exact two_answers|].
  split; [repeat constructor; vm_compute; congruence|]. split; [reflexivity|]. split; [reflexivity|]. split; [reflexivity|].
  split; [exact Hz|]. injection Q as Q1 _ Q3 Q4. apply is_ret_some in Q1. split; [exact Q4|]. split; [exact Q3|]. split; [exact Q1|].
  split; [discriminate|]. intros r [<-|[<-|[]]]; eauto.
Qed.
Lemma overlap_example : answers toy ex_ckey (c_ctr cst00) two_ds two_fs /\
  Forall (fun d => d <> [] /\ lenN d <= 9) two_ds /\ length two_ps = length two_ds /\
  exists y, dup_run toy ex_CE overlap_tcp (duplex toy ex_opts ex_ses 9 two_ps two_fs cst00) = Some y /\
    x_rd y = CRet [RdErr RdCounter; RdOk [x63] true].
Proof.
  split; [exact two_answers|]. split; [repeat constructor; vm_compute; congruence|]. split; [reflexivity|].
  destruct (option_map_some _ _ _ overlap_tcp_run) as (y & Hy & Q). exists y. split; [exact Hy|].
  injection Q as Q1 _ _ _. apply is_ret_some, Q1.
Qed.

(** The first answer is read before the second message is written. *)
Definition in_time1 : list dmove := rep 5 [MWrite] ++ [MAnswer; MArrive 35] ++ rep 14 [MRead].
Definition in_time2 : list dmove := rep 5 [MWrite] ++ [MAnswer; MArrive 34] ++ rep 10 [MRead].
Lemma in_time1_run :
  option_map (fun x => (c_ctr (x_cs x), length (x_todo x), x_chan x, c_in (x_cs x), match dup_move toy ex_CE x MRead with None => true | _ => false end,
      option_map (fun z => is_ret (x_rd z)) (dup_run toy ex_CE in_time2 x)))
    (dup_run toy ex_CE in_time1 (duplex toy ex_opts ex_ses 9 two_ps two_fs cst00)) =
  Some (1, 1%nat, [], [], true, Some (Some [RdOk [x61; x62] true; RdOk [x63] true])).
Proof. vm_compute. reflexivity. Qed.
Lemma in_time_example : exists y z, dup_run toy ex_CE in_time1 (duplex toy ex_opts ex_ses 9 two_ps two_fs cst00) = Some y /\
  c_ctr (x_cs y) = c_ctr cst00 + 1 /\ length (x_todo y) = 1%nat /\ x_chan y = [] /\ c_in (x_cs y) = [] /\ dup_move toy ex_CE y MRead = None /\
  dup_run toy ex_CE in_time2 y = Some z /\ x_rd z = CRet [RdOk [x61; x62] true; RdOk [x63] true].
Proof.
  destruct (option_map_some _ _ _ in_time1_run) as (y & Hy & Q). exists y. injection Q as Q1 Q2 Q3 Q4 Q5 Q6.
  destruct (option_map_some _ _ _ Q6) as (z & Hz & Q7). exists z. apply is_ret_some in Q7.
  split; [exact Hy|]. split; [exact Q1|]. split; [exact Q2|]. split; [exact Q3|]. split; [exact Q4|].
  split; [|split; [exact Hz|exact Q7]]. clear - Q5. change ((match dup_move toy ex_CE y MRead with None => true | _ => false end) = true) in Q5. revert Q5. destruct (dup_move toy ex_CE y MRead); [discriminate|reflexivity].
Qed.
