(** Instances for C186. *)
From Verif Require Import Bytes Parser Crypto Toy Wire Server ServerSeq ServerExamples Keys Client
  ClientSeq SpecClient SpecE2E ClientExamples SetupTwiceExamples.

(** Every dial has its own id. *)
Definition pe_CE (k : nat) : cenv := {|
  ce_end := ce_end ex_CE; ce_write := ce_write ex_CE; ce_deadline := ce_deadline ex_CE; ce_fetch := ce_fetch ex_CE;
  ce_rand := Some (n2b (N.of_nat k) :: repeat x07 15); ce_gen := ce_gen ex_CE |}.
Lemma pe_undisturbed k : exists csk rnd, undisturbed toy (pe_CE k) tw_SE ex_host ex_name csk rnd ex_sign_key.
Proof.
  exists ex_csk, (n2b (N.of_nat k) :: repeat x07 15). destruct (proj1 tw_undisturbed) as [U1 U2 U3 U4 U5 U6 U7 U8 U9 U10].
  split; try assumption. split; reflexivity.
Qed.
