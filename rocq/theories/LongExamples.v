(** A long message and a handler with a long reply, for examples. *)
From Verif Require Import Bytes BytesProofs Parser Crypto Kdf Wire WireSeq Toy Replay SpecReplay Server ServerSeq SpecServer ServerProofs ServerProps ServerProps2 ServerProps3 ServerExamples
  Keys Client ClientSeq SpecClient SpecE2E ClientExamples.

Definition long : bytes := repeat x00 (N.to_nat (2 ^ 30)).
Lemma long_len : lenN long = 2 ^ 30.
Proof. unfold long, lenN. rewrite repeat_length, N2Nat.id. reflexivity. Qed.
Lemma long_example : exists p : bytes, 2 ^ 30 < lenN p + 16 /\ lenN p + 16 < 2 ^ 64 /\ length (cs_id ex_ses) = 16%nat /\ c_works ex_CE.
Proof. exists long. rewrite long_len. split; [reflexivity|]. split; [reflexivity|]. split; [vm_compute; reflexivity|exact ex_c_works]. Qed.

Definition long_SE : senv := {|
  e_host := Some ex_host; e_end := EndEOF; e_write := fun _ b => (lenN b, None);
  e_gen := fun _ => Some ex_ssk; e_store := fun _ => true; e_handler := fun _ _ _ => HOk long;
  e_sign := e_sign ex_SE; e_fetch := e_fetch ex_SE; e_quit := fun _ => false |}.
Lemma long_reply_example : paired toy ex_ses ex_host [] (cst0 []) ex_ss /\ ~ refused_after [] 1 /\
  forall i, exists out, e_handler long_SE i true [x41] = HOk out /\ 2 ^ 30 < lenN out + 16 /\ lenN out + 16 < 2 ^ 64.
Proof.
  split; [|split].
  - constructor.
    + unfold ex_ss. apply WF_conn, wf_init.
    + vm_compute. reflexivity.
    + vm_compute. reflexivity.
    + constructor.
    + reflexivity.
  - unfold refused_after. cbn. intros [H|[H|H]]; [discriminate H|contradiction|lia].
  - intros i. exists long. rewrite long_len. repeat split.
Qed.
