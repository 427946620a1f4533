From Verif Require Import Bytes ClientConc Pool SpecPool PoolProofs PoolInv.

Lemma cnt_off_le f n c : (cnt f n <= cnt (upd f c false) n + 1)%nat.
Proof.
  destruct (f c) eqn:Hc; [destruct (Nat.lt_ge_cases c n) as [L|L]|].
  - rewrite (cnt_off f n c L Hc). lia.
  - rewrite (cnt_ext (upd f c false) f); [lia|]. intros d Hd. unfold upd. destruct (Nat.eqb_spec d c); [lia|reflexivity].
  - rewrite (cnt_ext (upd f c false) f); [lia|]. intros d Hd. unfold upd. destruct (Nat.eqb_spec d c); congruence.
Qed.

(** The pool never counts more than are open. *)
Lemma counted_open mi mo s : preachable mi mo s -> no_event (p_trace s) is_pool_error -> (p_num s <= open_count s)%Z.
Proof.
  intros R. induction R as [|s s' i R IH St]; intros N; [cbn; lia|].
  assert (N0 : no_event (p_trace s) is_pool_error).
  { destruct (step_trace _ _ _ _ _ St) as [ev E]. rewrite E in N. apply (no_event_ptr _ _ _ _ N). }
  specialize (IH N0). unfold open_count in *. fold (cnt (cl_open s) (p_next s)) in IH. fold (cnt (cl_open s') (p_next s')).
  destruct St; try exact IH; try (cbn in *; lia).
  - cbn -[cnt Z.of_nat]. lia.
  - unfold dialled. destruct (p_session s); cbn -[cnt Z.of_nat]; rewrite cnt_new; lia.
  - cbn -[cnt]. pose proof (cnt_off_le (cl_open s) (p_next s) c). lia.
  - exfalso. specialize (N i EPoolErr). cbn in N. discriminate (N (or_introl eq_refl)).
Qed.

Lemma waits_when_full mi mo s i s' : preachable mi mo s -> no_event (p_trace s) is_pool_error ->
  pstep mi mo s i s' -> p_pc s i <> TUnlocked -> p_pc s' i = TUnlocked -> p_idle s = [] /\ (mo <= open_count s)%Z.
Proof.
  intros R N St Hn Hu. pose proof (counted_open mi mo s R N) as B.
  destruct St; cbn in Hu; unfold upd in Hu; rewrite ?Nat.eqb_refl in Hu; try discriminate Hu; try congruence.
  - destruct w; discriminate Hu.
  - split; [assumption|lia].
  - destruct k; [|]; discriminate Hu.
  - destruct k; discriminate Hu.
  - destruct k; discriminate Hu.
Qed.
