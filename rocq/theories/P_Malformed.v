(** Property C116: how the server answers a request that is not one. *)
From Verif Require Import Bytes Parser Crypto Wire WireSeq Toy Replay Server ServerSeq SpecServer ServerProps SpecMalformed MalformedProofs ServerExamples.

(** C116. A Setup or Process request whose rest does not have the published layout,
    because it is cut short, announces more than the limit, or carries a key that
    is none, is answered with error 1; no handler is called and no session changes,
    and the connection stays open. *)
Theorem C116_malformed_answered : forall C E s b i, e_quit E (s_step s) = false -> s_in s = b :: i -> b2n b / 16 = 1 ->
  (b2n b mod 16 = 3 /\ ~ process_body i) \/ (b2n b mod 16 = 2 /\ ~ setup_body C i) ->
  let '(res, s') := srun C E (conn_body C) s in
  (exists t, responded s s' (RsError 1 t)) /\ no_calls s s' /\ same_sessions C s s' /\ (writes_all E -> res = Some true).
Proof. exact malformed. Qed.
Print Assumptions C116_malformed_answered.
(** A Process request that announces one octet more than it may, and a Setup
    request that ends early. *)
Definition ex_over : bytes := x00 :: repeat x07 16 ++ be_enc 8 1 ++ be_enc 8 (2 ^ 30 + 1) ++ [x01; x02].
Definition ex_cut : bytes := repeat x07 16 ++ be_enc 4 44 ++ [x30].
Example C116_example : ~ process_body ex_over /\ ~ setup_body toy ex_cut /\
  fst (srun toy ex_E (conn_body toy) (ex_s (x13 :: ex_over))) = Some true /\
  fst (srun toy ex_E (conn_body toy) (ex_s (x12 :: ex_cut))) = Some true.
Proof. exact malformed_examples. Qed.
