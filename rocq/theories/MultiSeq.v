(** A connection that shares its sessions with no other one behaves as if it were
    alone: as in ServerSeq.v. *)
From Verif Require Import Bytes BytesProofs Parser Crypto Kdf Wire Replay Server ServerSeq SpecServer
  MultiConn SpecMulti MultiProofs ServerProps3.

(** What a connection still does when left alone. *)
Definition finish (C : Crypto) (E : senv) (fuel : nat) (m : mem) (c : conn) : fate * sst :=
  match srun C E (c_prog c) (join m c) with
  | (Some true, s) => serve C E fuel s
  | (Some false, s) => (Closed, s)
  | (None, s) => (Panicked, s)
  end.

Lemma join_of p s : join (mem_of s) (conn_of p s) = s.
Proof. destruct s. reflexivity. Qed.

Lemma conn_of_join p m c : conn_of p (join m c) =
  {| c_prog := p; c_in := c_in c; c_step := c_step c; c_sent := c_sent c; c_calls := c_calls c |}.
Proof. reflexivity. Qed.

Lemma finish_step C E fuel m c :
  let '(m', c') := conn_step C E true m c in
  finish C E fuel m c = finish C E fuel m' c' \/
  (exists f, fuel = S f /\ finish C E fuel m c = finish C E f m' c') \/
  fst (finish C E fuel m c) = OutOfFuel.
Proof.
  unfold conn_step. destruct c as [p i n se ca]. cbn [c_prog]. destruct p as [[|]| |R e k].
  - destruct fuel as [|f].
    + right. right. reflexivity.
    + right. left. exists f. split; reflexivity.
  - left. reflexivity.
  - left. reflexivity.
  - destruct (sexec C E e (join m {| c_prog := SDo e k; c_in := i; c_step := n; c_sent := se; c_calls := ca |}))
      as [r s] eqn:Es.
    left. unfold finish. rewrite join_of. cbn [c_prog srun conn_of]. rewrite Es. reflexivity.
Qed.

Fixpoint solo (C : Crypto) (E : senv) (n : nat) (m : mem) (c : conn) : mem * conn :=
  match n with
  | O => (m, c)
  | S n => let '(m', c') := conn_step C E true m c in solo C E n m' c'
  end.

Lemma finish_solo C E n : forall fuel m c, fst (finish C E fuel m c) <> OutOfFuel ->
  exists f, finish C E fuel m c = finish C E f (fst (solo C E n m c)) (snd (solo C E n m c)).
Proof.
  induction n as [|n IH]; intros fuel m c Hf; [exists fuel; reflexivity|]. cbn [solo].
  pose proof (finish_step C E fuel m c) as Hs. destruct (conn_step C E true m c) as [m' c'].
  destruct Hs as [Hs|[(f & -> & Hs)|Hs]]; [| |contradiction].
  - rewrite Hs in *. apply IH, Hf.
  - rewrite Hs in *. apply IH, Hf.
Qed.

Lemma run_solo C E tcp i l : tcp i = true -> (forall a, In a l -> a = AConn i) -> forall t,
  let t' := mrun C E tcp l t in
  (t_mem t', t_conn t' i) = solo C (E i) (length l) (t_mem t) (t_conn t i).
Proof.
  intros Ht. induction l as [|a l IH]; intros Hl t; [reflexivity|].
  rewrite (Hl a (or_introl eq_refl)). cbn [mrun fold_left length solo mstep].
  specialize (IH (fun b Hb => Hl b (or_intror Hb)) (mstep C E tcp t (AConn i))). cbv zeta in IH.
  cbn [mstep] in IH. unfold mrun in IH. rewrite IH. cbn [t_mem t_conn set_conn]. rewrite Nat.eqb_refl, Ht.
  destruct (conn_step C (E i) true (t_mem t) (t_conn t i)); reflexivity.
Qed.

(** Sending and calling only ever adds. *)
Definition grows (s s' : sst) : Prop :=
  (exists x, s_sent s' = s_sent s ++ x) /\ (exists y, s_calls s' = s_calls s ++ y).

Lemma grows_refl s : grows s s.
Proof. split; exists []; rewrite app_nil_r; reflexivity. Qed.

Lemma grows_trans a b c : grows a b -> grows b c -> grows a c.
Proof.
  intros [(x & Hx) (y & Hy)] [(x' & Hx') (y' & Hy')]. split.
  - exists (x ++ x'). rewrite Hx', Hx, app_assoc. reflexivity.
  - exists (y ++ y'). rewrite Hy', Hy, app_assoc. reflexivity.
Qed.

Lemma grows_exec {R} C E (e : seff R) s : grows s (snd (sexec C E e s)).
Proof.
  destruct e; cbn [sexec].
  - destruct (fl_read n (s_in s) (e_end E)). apply (grows_refl s).
  - destruct (fl_copy n (s_in s) (e_end E)). apply (grows_refl s).
  - apply grows_refl.
  - destruct (e_write E (s_step s) b) as [n er]. split; [eexists; reflexivity|exists []; cbn; rewrite app_nil_r; reflexivity].
  - apply grows_refl.
  - apply (grows_refl s).
  - apply (grows_refl s).
  - destruct (e_store E (s_step s)); apply (grows_refl s).
  - apply grows_refl.
  - apply grows_refl.
  - destruct (check_and_update (ses_win (s_heap s p)) c); apply (grows_refl s).
  - split; [exists []; cbn; rewrite app_nil_r; reflexivity|eexists; reflexivity].
  - apply grows_refl.
  - apply (grows_refl s).
  - apply (grows_refl s).
  - apply (grows_refl s).
Qed.

Lemma grows_run {A} C E (p : sprog A) : forall s, grows s (snd (srun C E p s)).
Proof.
  induction p as [a| |R e k IH]; intros s; cbn [srun]; try apply grows_refl.
  pose proof (grows_exec C E e s) as Hg. destruct (sexec C E e s) as [r s']. cbn [snd] in Hg.
  eapply grows_trans; eauto.
Qed.

Lemma grows_serve C E fuel : forall s, grows s (snd (serve C E fuel s)).
Proof.
  induction fuel as [|f IH]; intros s; cbn [serve]; [apply grows_refl|].
  pose proof (grows_run C E (conn_body C) s) as Hg.
  destruct (srun C E (conn_body C) s) as [[[|]|] s']; cbn [snd] in *; auto.
  eapply grows_trans; eauto.
Qed.

Lemma grows_finish C E fuel m c : grows (join m c) (snd (finish C E fuel m c)).
Proof.
  unfold finish. pose proof (grows_run C E (c_prog c) (join m c)) as Hg.
  destruct (srun C E (c_prog c) (join m c)) as [[[|]|] s']; cbn [snd] in *; auto.
  eapply grows_trans; [exact Hg|apply grows_serve].
Qed.

Theorem as_if_alone C E tcp i inputs m sched K :
  sane m -> tcp i = true ->
  within C E tcp (fun j => Nat.eqb j i) K sched (starting C tcp inputs m) ->
  (forall k, In (ACollect k) sched -> K k = false) ->
  let all := mrun C E tcp sched (starting C tcp inputs m) in
  let '(ft, s) := serve_conn C (E i) (join m (fresh_conn C true (inputs i))) in
  match status_of true (t_conn all i) with
  | Ended => ft = Closed /\ agrees C K (t_mem all) (t_conn all i) s
  | Crashed => ft = Panicked /\ agrees C K (t_mem all) (t_conn all i) s
  | Running => exists x y, s_sent s = c_sent (t_conn all i) ++ x /\
                 seen (s_calls s) = seen (c_calls (t_conn all i)) ++ y
  end.
Proof.
  intros Hsane Ht Hown Hcol all.
  pose proof (undisturbed C E tcp (fun j => Nat.eqb j i) K inputs m sched Hsane Hown) as [Hc Hk].
  fold all in Hc, Hk. set (few := mrun C E tcp (part _ K sched) (starting C tcp inputs m)) in *.
  specialize (Hc i (Nat.eqb_refl i)). rewrite Ht in Hc.
  assert (Hp : forall a, In a (part (fun j => Nat.eqb j i) K sched) -> a = AConn i).
  { intros a Ha. apply filter_In in Ha. destruct Ha as [Ha Hb]. destruct a as [j|k].
    - apply Nat.eqb_eq in Hb. congruence.
    - apply Hcol in Ha. congruence. }
  pose proof (run_solo C E tcp i _ Ht Hp (starting C tcp inputs m)) as Hsolo. cbv zeta in Hsolo.
  fold few in Hsolo. cbn [starting t_mem t_conn] in Hsolo. rewrite Ht in Hsolo.
  set (n := length (part (fun j => Nat.eqb j i) K sched)) in *.
  destruct (serve_conn C (E i) (join m (fresh_conn C true (inputs i)))) as [ft s] eqn:Es.
  set (c0 := fresh_conn C true (inputs i)) in *.
  change (serve C (E i) (S (S (length (inputs i)))) (join m c0) = (ft, s)) in Es.
  assert (Hne : ft <> OutOfFuel).
  { pose proof (serve_ends C (E i) (S (S (length (inputs i)))) (join m c0)) as He.
    rewrite Es in He. apply He. cbn. lia. }
  assert (Hfin : finish C (E i) (S (length (inputs i))) m c0 = (ft, s)) by exact Es.
  destruct (finish_solo C (E i) n (S (length (inputs i))) m c0) as [f Hf].
  { rewrite Hfin. exact Hne. }
  rewrite Hfin, <- Hsolo in Hf. cbn [fst snd] in Hf. clear Hsolo Es Hfin.
  destruct Hc as (A1 & A2 & A3 & A4 & A5). rewrite A5.
  assert (Hag : join (t_mem few) (t_conn few i) = s -> agrees C K (t_mem all) (t_conn all i) s).
  { intros <-. repeat split; auto. }
  pose proof (grows_finish C (E i) f (t_mem few) (t_conn few i)) as Hg. rewrite <- Hf in Hg. cbn [snd] in Hg.
  assert (Hrun : exists x y, s_sent s = c_sent (t_conn all i) ++ x /\
                 seen (s_calls s) = seen (c_calls (t_conn all i)) ++ y).
  { destruct Hg as [(x & Hx) (y & Hy)]. exists x, (seen y). split.
    - rewrite Hx, A3. reflexivity.
    - rewrite A4, Hy. unfold seen. rewrite map_app. reflexivity. }
  unfold status_of. unfold finish in Hf.
  destruct (c_prog (t_conn few i)) as [[|]| |R e k]; try exact Hrun; cbn [srun] in Hf.
  - injection Hf as -> Hs. split; [reflexivity|]. apply Hag. symmetry. exact Hs.
  - injection Hf as -> Hs. split; [reflexivity|]. apply Hag. symmetry. exact Hs.
Qed.

Theorem alone_host C E tcp i inputs m sched K :
  sane m -> tcp i = true ->
  (forall j hst id, e_host (E j) = Some hst -> lenN id = 16 -> K (session_key C hst id) = Nat.eqb j i) ->
  (forall k, In (ACollect k) sched -> K k = false) ->
  let all := mrun C E tcp sched (starting C tcp inputs m) in
  let '(ft, s) := serve_conn C (E i) (join m (fresh_conn C true (inputs i))) in
  match status_of true (t_conn all i) with
  | Ended => ft = Closed /\ agrees C K (t_mem all) (t_conn all i) s
  | Crashed => ft = Panicked /\ agrees C K (t_mem all) (t_conn all i) s
  | Running => exists x y, s_sent s = c_sent (t_conn all i) ++ x /\
                 seen (s_calls s) = seen (c_calls (t_conn all i)) ++ y
  end.
Proof.
  intros Hs Ht Ho Hc. apply as_if_alone; auto. apply tame_within; [exact Ho|]. apply tame_start, Ho.
Qed.

(** ** Progress *)
Lemma solo_stays C E n m c : status_of true c <> Running -> solo C E n m c = (m, c).
Proof.
  intros Hs. induction n as [|n IH]; [reflexivity|]. cbn [solo].
  assert (Hst : conn_step C E true m c = (m, c)).
  { unfold conn_step. unfold status_of in Hs. destruct (c_prog c) as [[|]| |R e k]; congruence. }
  rewrite Hst. exact IH.
Qed.

Lemma solo_more C E n k : forall m c, status_of true (snd (solo C E n m c)) <> Running ->
  status_of true (snd (solo C E (n + k) m c)) <> Running.
Proof.
  induction n as [|n IH]; intros m c H.
  - cbn [plus]. rewrite solo_stays; exact H.
  - cbn [plus solo] in *. destruct (conn_step C E true m c) as [m' c']. apply IH, H.
Qed.

Lemma solo_end C E fuel : forall m c, fst (finish C E fuel m c) <> OutOfFuel ->
  exists n, status_of true (snd (solo C E n m c)) <> Running.
Proof.
  induction fuel as [|f IHf]; intros m [p i n se ca]; revert m i n se ca;
    (induction p as [[|]| |R e k IH]; intros m i n se ca Hf; try (exists 0%nat; discriminate)).
  - exfalso. apply Hf. reflexivity.
  - unfold finish in Hf. cbn [c_prog srun] in Hf.
    set (c := {| c_prog := SDo e k; c_in := i; c_step := n; c_sent := se; c_calls := ca |}) in *.
    destruct (sexec C E e (join m c)) as [r s] eqn:Es.
    destruct (IH r (mem_of s) (s_in s) (s_step s) (s_sent s) (s_calls s)) as [n' Hn'].
    { unfold finish. cbn [c_prog]. fold (conn_of (k r) s). rewrite join_of. exact Hf. }
    exists (S n'). cbn [solo]. unfold conn_step at 1, c at 1. cbn [c_prog]. rewrite Es. exact Hn'.
  - destruct (IHf m (conn_of (conn_body C) (join m {| c_prog := SRet true; c_in := i; c_step := n; c_sent := se; c_calls := ca |}))) as [n' Hn'].
    { exact Hf. }
    exists (S n'). exact Hn'.
  - unfold finish in Hf. cbn [c_prog srun] in Hf.
    set (c := {| c_prog := SDo e k; c_in := i; c_step := n; c_sent := se; c_calls := ca |}) in *.
    destruct (sexec C E e (join m c)) as [r s] eqn:Es.
    destruct (IH r (mem_of s) (s_in s) (s_step s) (s_sent s) (s_calls s)) as [n' Hn'].
    { unfold finish. cbn [c_prog]. fold (conn_of (k r) s). rewrite join_of. exact Hf. }
    exists (S n'). cbn [solo]. unfold conn_step at 1, c at 1. cbn [c_prog]. rewrite Es. exact Hn'.
Qed.

(** How often a connection was scheduled. *)
Theorem alone_ends C E tcp i inputs m : sane m -> tcp i = true ->
  exists n, forall sched K,
  within C E tcp (fun j => Nat.eqb j i) K sched (starting C tcp inputs m) ->
  (forall k, In (ACollect k) sched -> K k = false) ->
  (n <= turns i sched)%nat ->
  status_of true (t_conn (mrun C E tcp sched (starting C tcp inputs m)) i) <> Running.
Proof.
  intros Hsane Ht. set (c0 := fresh_conn C true (inputs i)).
  destruct (solo_end C (E i) (S (length (inputs i))) m c0) as [n Hn].
  { change (fst (serve C (E i) (S (S (length (inputs i)))) (join m c0)) <> OutOfFuel).
    apply serve_ends. cbn. lia. }
  exists n. intros sched K Hw Hcol Hle.
  pose proof (undisturbed C E tcp (fun j => Nat.eqb j i) K inputs m sched Hsane Hw) as [Hc _].
  specialize (Hc i (Nat.eqb_refl i)). rewrite Ht in Hc. destruct Hc as (_ & _ & _ & _ & ->).
  assert (Hp : forall a, In a (part (fun j => Nat.eqb j i) K sched) -> a = AConn i).
  { intros a Ha. apply filter_In in Ha. destruct Ha as [Ha Hb]. destruct a as [j|k].
    - apply Nat.eqb_eq in Hb. congruence.
    - apply Hcol in Ha. congruence. }
  pose proof (run_solo C E tcp i _ Ht Hp (starting C tcp inputs m)) as Hsolo. cbv zeta in Hsolo.
  apply (f_equal snd) in Hsolo. cbn [snd] in Hsolo. rewrite Hsolo. cbn [starting t_mem t_conn]. rewrite Ht.
  fold c0.
  assert (Hlen : length (part (fun j => Nat.eqb j i) K sched) = turns i sched).
  { clear -Hcol. unfold part, turns. f_equal. apply filter_ext_in. intros [j|k] Hin; [reflexivity|].
    apply Hcol, Hin. }
  rewrite Hlen. replace (turns i sched) with (n + (turns i sched - n))%nat by lia.
  apply solo_more, Hn.
Qed.
