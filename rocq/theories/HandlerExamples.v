(** Instances for C184. *)
From Verif Require Import Bytes Parser Crypto Toy Wire Server ServerSeq Keys Client ClientSeq SpecClient SpecE2E ServerExamples ClientExamples Handler SpecHandler HandlerProofs.

Definition echo_SE : senv := {|
  e_host := e_host ex_SE; e_end := e_end ex_SE; e_write := e_write ex_SE; e_gen := e_gen ex_SE; e_store := e_store ex_SE;
  e_handler := fun _ _ m => HOk m;
  e_sign := e_sign ex_SE; e_fetch := e_fetch ex_SE; e_quit := e_quit ex_SE |}.
(** The handler of [ex_SE] written as a program; one that writes and then fails; and
    one that stops reading after two octets and writes twice. *)
Definition shout : hprog := collect 3 (fun m => m ++ [x21]) [].
Definition undecided : hprog := HPut [x41] (fun _ => HEnd false).
Definition hasty : hprog := HGet 2 (fun r => HPut (fst r) (fun _ => HPut [x3a] (fun _ => HEnd true))).
