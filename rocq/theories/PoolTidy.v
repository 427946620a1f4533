(** The part of C62 that holds. *)
From Verif Require Import Bytes BytesProofs ClientConc Pool SpecPool PoolProofs PoolInv PoolExec PoolThms.

(** * C62 *)
Lemma tidy_reach mi mo s : tidy mi mo s -> preachable mi mo s.
Proof. induction 1; econstructor; eassumption. Qed.
Lemma shut_all_buf l : forall s c, cl_buf (shut_all s l) c = cl_buf s c \/ cl_buf (shut_all s l) c = [].
Proof.
  induction l as [|a l IH]; intros s c; [left; reflexivity|]. cbn [shut_all fold_left]. change (fold_left shut l (shut s a)) with (shut_all (shut s a) l).
  destruct (IH (shut s a) c) as [-> | ->]; [|right; reflexivity]. cbn. unfold upd. destruct (Nat.eqb c a); auto.
Qed.
(** The pool itself takes no client from a borrower and soils no buffer. *)
Lemma pool_clean mi mo s i s' : pstep mi mo s i s' -> p_pc s i <> TIdle -> forall z,
  (with_user (p_trace s) z = true -> with_user (p_trace s') z = true) /\
  (with_user (p_trace s) z = false -> cl_buf s' z = cl_buf s z \/ cl_buf s' z = []).
Proof.
  intros St N z. cases_of St; try congruence; sim; split; intros W; cbn; try (left; reflexivity); try exact W.
  - destruct (Nat.eqb c z); [reflexivity|exact W].
  - destruct (dialled_fields s) as (_ & _ & _ & _ & _ & _ & Et & _). rewrite Et. destruct (Nat.eqb (p_next s) z); [reflexivity|exact W].
  - unfold dialled. destruct (p_session s); cbn [cl_buf]; unfold upd; destruct (Nat.eqb z (p_next s)); auto.
  - unfold upd. destruct (Nat.eqb z c); auto.
  - rewrite with_user_shut. exact W.
  - apply shut_all_buf.
  - rewrite with_user_shut. exact W.
  - apply shut_all_buf.
  - rewrite with_user_shut. exact W.
  - apply shut_all_buf.
Qed.
Lemma tidy_empty mi mo s : tidy mi mo s -> forall c, with_user (p_trace s) c = false -> cl_buf s c = [].
Proof.
  induction 1 as [|s i s' T IH St U]; intros c H; [reflexivity|].
  assert (D : {p_pc s i = TIdle} + {p_pc s i <> TIdle}) by (destruct (p_pc s i); (left; reflexivity) || (right; discriminate)).
  destruct D as [D|D].
  - destruct (U D c) as [A B]. destruct (with_user (p_trace s) c) eqn:W; [apply A; [reflexivity|exact H]|].
    rewrite B by reflexivity. apply IH, W.
  - destruct (pool_clean mi mo s i s' St D c) as [A B]. destruct (with_user (p_trace s) c) eqn:W; [rewrite A in H by reflexivity; discriminate|].
    destruct (B eq_refl) as [E|E]; [rewrite E; apply IH, W|exact E].
Qed.
Lemma ptr_skip {A} (x : A) ev tr : tr = x :: ev ++ tr -> False.
Proof. intros H. apply (f_equal (@length _)) in H. cbn in H. rewrite app_length in H. lia. Qed.
Lemma tidy_clean mi mo s i s' z : tidy mi mo s -> pstep mi mo s i s' -> disciplined (p_trace s') -> hands_out s i s' z ->
  cl_buf s' z = [].
Proof.
  intros T St Di (ev & X0).
  assert (O : oinv (own_of s)).
  { apply (oinv_reachable mi mo); [apply tidy_reach, T|]. destruct (step_trace _ _ _ _ _ St) as [ev' E']. rewrite E' in Di. apply (disciplined_ptr _ _ _ Di). }
  cases_of St; sim; cbn [map app] in X0; try (destruct (ptr_skip (i, EGot z) ev (p_trace s) X0); fail);
    try discriminate X0; try (injection X0 as X0; discriminate).
  - injection X0 as -> _. apply (tidy_empty mi mo); [exact T|]. apply (oi_hand_user _ O i). cbn. rewrite P. reflexivity.
  - injection X0 as <- _. unfold dialled. destruct (p_session s); cbn [cl_buf]; unfold upd; rewrite Nat.eqb_refl; reflexivity.
Qed.

(** One borrower uses the client, reads everything and gives it back, another gets it. *)
Definition gentle (s : pst) (a : pact) : Prop :=
  match a with AUse c _ => with_user (p_trace s) c = true | AGive c => cl_buf s c = [] | _ => True end.
Lemma tidy_pdo n mi mo s i a s' : tidy mi mo s -> (forall j, (n <= j)%nat -> p_pc s j = TIdle) -> gentle s a ->
  pdo n mi mo s i a = Some s' -> tidy mi mo s'.
Proof.
  intros T V G H. pose proof (pdo_sound n mi mo s i a s' V H) as St.
  apply (TdNext mi mo s i s' T St). intros P z. unfold pdo in H. destruct (negb (Nat.ltb i n)); [discriminate|].
  rewrite P in H. destruct a; try discriminate;
    try (destruct (got_before (p_trace s) c) eqn:B; [|discriminate]); injection H as <-; sim; cbn in *; split; intros W; try congruence.
  - destruct (Nat.eqb_spec c z) as [<-|]; [intros _; exact G|congruence].
  - unfold upd. destruct (Nat.eqb_spec z c) as [->|]; [congruence|reflexivity].
Qed.
Lemma tidy_pafter n mi mo l i a : tidy mi mo (pafter n mi mo l) -> pworks n mi mo (l ++ [(i, a)]) = true ->
  gentle (pafter n mi mo l) a -> tidy mi mo (pafter n mi mo (l ++ [(i, a)])).
Proof. intros T W G. destruct (pafter_last n mi mo l i a W) as (_ & _ & F & D). apply (tidy_pdo n mi mo _ i a _ T F G D). Qed.
Definition acts_gentle : list (nat * pact) :=
  acts_get 0 ++ [(0, AUse 0 [x41; x42]); (0, AUse 0 [])]%nat ++ acts_give 0 0 ++ [(1, AGet); (1, AGo); (1, AGo)]%nat.
Definition ex_gentle : pst := pafter 2 1 1 acts_gentle.
Lemma ex_gentle_facts : tidy 1 1 ex_gentle /\ exists s', pstep 1 1 ex_gentle 1 s' /\ disciplined (p_trace s') /\ hands_out ex_gentle 1 s' 0.
Proof.
  split.
  - unfold ex_gentle, acts_gentle, acts_get, acts_give. cbn [app].
    repeat match goal with |- tidy _ _ (pafter _ _ _ ?l) =>
      match l with
      | [] => constructor
      | _ => let l' := eval cbn in (removelast l) in let x := eval cbn in (last l (0%nat, AGo)) in
             change l with (l' ++ [x]); apply tidy_pafter; [|vm_compute; reflexivity|vm_compute; try exact I; reflexivity]; cbn [app]
      end end.
  - destruct (pafter_last 2 1 1 acts_gentle 1 AGo) as (_ & S & _); [vm_compute; reflexivity|].
    eexists. split; [exact S|]. split; [apply disciplinedb_spec; vm_compute; reflexivity|].
    exists [(1%nat, ETest 0 true)]. vm_compute. reflexivity.
Qed.
