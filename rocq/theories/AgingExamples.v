(** A server that set up a session at time 0 with its manager, for examples. *)
From Verif Require Import Bytes BytesProofs Parser Crypto Kdf Wire WireSeq Toy Replay SpecReplay SecretMgr SecretMgrProofs Server ServerSeq SpecServer
  ServerProofs ServerProps ServerExamples Keys Client ClientSeq SpecClient SpecE2E ClientExamples Aging SpecAging AgingProofs.

(** Minutes, in nanoseconds. *)
Definition minutes (n : Z) : Z := (n * 60000000000)%Z.
Definition ex_a0 : ast :=
  {| a_srv := sst0 (enc_request (RqSetup (uuid_of ex_rnd) (x_pub toy ex_csk))); a_mgr := smap_empty; a_now := 0 |}.
Definition ex_a : ast := snd (arun toy ex_SE (conn_body toy) ex_a0).
Definition ex_akey : bytes := session_key toy ex_host (cs_id ex_ses).
Definition at_min (gcs : list Z) (now : Z) (p : bytes) : turn :=
  {| tu_between := map (fun g => MGc (minutes g)) gcs; tu_now := minutes now; tu_msg := p |}.

Lemma ex_a_ok : paired toy ex_ses ex_host [] (cst0 []) (view ex_a) /\ used_at ex_a ex_akey 0.
Proof.
  split.
  - constructor.
    + pose proof (sim_run toy ex_SE (conn_body toy) (fun _ => eq_refl) ex_a0
        (sst0 (enc_request (RqSetup (uuid_of ex_rnd) (x_pub toy ex_csk)))) ltac:(split; reflexivity)) as H.
      unfold ex_a. destruct (arun toy ex_SE (conn_body toy) ex_a0) as [r a1].
      destruct (srun toy ex_SE (conn_body toy) _) as [r' s1] eqn:E. destruct H as [_ S]. apply (sim_wf a1 s1 S).
      change s1 with (snd (r', s1)). rewrite <- E. apply WF_conn, wf_init.
    + vm_compute. reflexivity.
    + vm_compute. reflexivity.
    + constructor.
    + reflexivity.
  - exists 0%nat. vm_compute. reflexivity.
Qed.
Lemma ex_a_talks : let us := [at_min [1; 2; 15] 15 [x41]; at_min [16; 30] 30 [x42]]%Z in
  in_time (minutes 15) ex_akey 0 us /\
  fst (fst (aturns toy ex_CE ex_SE ex_opts ex_ses 100 (minutes 15) us (cst0 []) ex_a)) = [Some (RdOk [x41; x21] true); Some (RdOk [x42; x21] true)].
Proof.
  cbv zeta. split; [|vm_compute; reflexivity].
  assert (G : forall t l h g h', map (fun g => MGc (minutes g)) l = h ++ MGc g :: h' -> last_use ex_akey t h = t /\ exists g0, In g0 l /\ g = minutes g0).
  { intros t. induction l as [|x l IH]; intros [|y h] g h' E; try discriminate.
    - injection E as <- _. split; [reflexivity|]. exists x. split; [left; reflexivity|reflexivity].
    - injection E as <- E. destruct (IH h g h' E) as (A & g0 & B & D). split; [exact A|]. exists g0. split; [right; exact B|exact D]. }
  cbn [in_time at_min tu_between tu_now]. split; [|split; [|exact I]]; intros h g h' E.
  - destruct (G 0%Z [1; 2; 15]%Z h g h' E) as (-> & g0 & B & ->). destruct B as [<-|[<-|[<-|[]]]]; vm_compute; discriminate.
  - destruct (G (minutes 15) [16; 30]%Z h g h' E) as (-> & g0 & B & ->). destruct B as [<-|[<-|[]]]; vm_compute; discriminate.
Qed.
Lemma ex_a_lost : 
  fst (fst (aturns toy ex_CE ex_SE ex_opts ex_ses 100 (minutes 15) [at_min [1; 2; 16] 17 [x41]; at_min [18] 19 [x41]]%Z (cst0 []) ex_a)) =
  [Some (RdErr (RdRemote 3 msg_unknown)); Some (RdErr (RdRemote 3 msg_unknown))].
Proof. vm_compute. reflexivity. Qed.
