(** Instances for C186 with a moving program. *)
From Verif Require Import Bytes BytesProofs Parser Crypto Toy Wire Server ServerSeq ServerExamples Keys Client
  ClientSeq SpecClient SpecE2E ClientExamples SetupTwiceExamples SpecPersist PersistExamples SpecWander.

(** What [pe_CE] draws, and a server that sees three addresses as three hosts. *)
Definition pe_rnd (k : nat) : bytes := n2b (N.of_nat k) :: repeat x07 15.
Definition pe_hostof (a : bytes) : option bytes := if bytes_eqb a [x01] then Some ex_host else Some a.
Lemma pe_undisturbed_at k : undisturbed toy (pe_CE k) tw_SE ex_host ex_name ex_csk (pe_rnd k) ex_sign_key.
Proof. destruct (proj1 tw_undisturbed) as [U1 U2 U3 U4 U5 U6 U7 U8 U9 U10]. split; try assumption. split; reflexivity. Qed.

(** Away, back, a restart, and away again. *)
Definition pe_script : list episode :=
  [Stay (Say [x41]); Move [x05]; Stay (Say [x42]); Stay (Say []); Move [x01]; Stay Restart; Stay (Say [x43]); Move [x06]; Move [x05]; Stay (Say [x44])].

Definition pe_ids : list (bytes * nat) := flat_map (fun h => map (fun k => (h, k)) (seq 0 11)) [ex_host; [x05]; [x06]].
Definition pe_keys : list bytes := map (fun q => session_key toy (fst q) (uuid_of (pe_rnd (snd q)))) pe_ids.
Fixpoint distinct (l : list bytes) : bool := match l with [] => true | x :: t => negb (existsb (bytes_eqb x) t) && distinct t end.
Lemma distinct_ok l : distinct l = true -> NoDup l.
Proof.
  induction l as [|x t IH]; cbn [distinct]; intro H; constructor; apply andb_prop in H as [H1 H2]; [|auto].
  intro Hin. apply Bool.negb_true_iff in H1. assert (existsb (bytes_eqb x) t = true) as E; [|congruence].
  apply existsb_exists. exists x. split; [exact Hin|]. destruct (bytes_eqb_spec x x); [reflexivity|contradiction].
Qed.
Lemma pe_distinct : distinct pe_keys = true.
Proof. vm_compute. reflexivity. Qed.
Lemma map_inj_in {A B} (g : A -> B) l x y : NoDup (map g l) -> In x l -> In y l -> g x = g y -> x = y.
Proof.
  induction l as [|z l IH]; [contradiction|]. cbn [map]. intros H Hx Hy E. inversion H as [|? ? N1 N2]; subst.
  destruct Hx as [->|Hx], Hy as [->|Hy]; auto; exfalso; apply N1; [rewrite E|rewrite <- E]; apply in_map; assumption.
Qed.
Lemma pe_hosts a h : In a ([x01] :: places pe_script) -> pe_hostof a = Some h -> In h [ex_host; [x05]; [x06]].
Proof. cbn [pe_script places flat_map app In]. intros Ha E. repeat destruct Ha as [<-|Ha]; try contradiction; injection E as <-; cbn [In]; auto. Qed.
Lemma pe_inj a a' h h' j k : In a ([x01] :: places pe_script) -> In a' ([x01] :: places pe_script) -> pe_hostof a = Some h -> pe_hostof a' = Some h' ->
  (j <= length pe_script)%nat -> (k <= length pe_script)%nat ->
  session_key toy h (uuid_of (pe_rnd j)) = session_key toy h' (uuid_of (pe_rnd k)) -> h = h' /\ j = k.
Proof.
  intros Ha Ha' E E' Hj Hk X. change (length pe_script) with 10%nat in Hj, Hk.
  assert (I : forall b g i, In b ([x01] :: places pe_script) -> pe_hostof b = Some g -> (i <= 10)%nat -> In (g, i) pe_ids).
  { intros b g i Hb Eb Hi. apply in_flat_map. exists g. split; [exact (pe_hosts b g Hb Eb)|]. apply in_map_iff. exists i. split; [reflexivity|]. apply in_seq. lia. }
  assert (Y : (h, j) = (h', k)).
  { apply (map_inj_in _ pe_ids _ _ (distinct_ok _ pe_distinct) (I a h j Ha E Hj) (I a' h' k Ha' E' Hk)). exact X. }
  injection Y. auto.
Qed.
