(** The client and its connection by themselves: any order of their steps leads
    to the same end. *)
From Verif Require Import Bytes BytesProofs Parser ParserProofs Crypto Kdf Wire WireProofs WireSeq Replay SpecReplay Server
  ServerSeq SpecServer ServerProofs MultiConn SpecMulti Keys Client ClientSeq SpecClient ClientProofs SpecE2E E2EProofs
  System Kahn.

(** ** One more octet in the queue *)
Definition s_feed (s : sst) (b : bytes) : sst := set_in s (s_in s ++ b).

Lemma takeN_short {n} {i b : bytes} : n <= lenN i -> takeN n (i ++ b) = takeN n i /\ dropN n (i ++ b) = dropN n i ++ b.
Proof.
  intros H. assert (E : i = takeN n i ++ dropN n i) by (symmetry; apply takeN_dropN).
  assert (Hl : lenN (takeN n i) = n) by (rewrite takeN_len; lia).
  split.
  - rewrite E at 1. rewrite <- app_assoc. apply takeN_app. exact Hl.
  - rewrite E at 1. rewrite <- app_assoc. apply dropN_app. exact Hl.
Qed.

Lemma fl_read_feed n i b e : n <= lenN i -> fl_read n (i ++ b) e = (fst (fl_read n i e), snd (fl_read n i e) ++ b).
Proof.
  intros H. unfold fl_read. rewrite lenN_app. destruct (N.leb_spec n (lenN i)); [|lia].
  destruct (N.leb_spec n (lenN i + lenN b)); [|lia]. destruct (takeN_short (b := b) H) as [-> ->]. reflexivity.
Qed.
Lemma fl_copy_feed n i b e : n <= lenN i -> fl_copy n (i ++ b) e = (fst (fl_copy n i e), snd (fl_copy n i e) ++ b).
Proof.
  intros H. unfold fl_copy. rewrite lenN_app. destruct (N.leb_spec n (lenN i)); [|lia].
  destruct (N.leb_spec n (lenN i + lenN b)); [|lia]. destruct (takeN_short (b := b) H) as [-> ->]. reflexivity.
Qed.
Lemma fl_read_le n i e : lenN (snd (fl_read n i e)) <= lenN i.
Proof. unfold fl_read. destruct (n <=? lenN i); cbn [snd]; [rewrite dropN_len; lia|rewrite lenN_nil; lia]. Qed.
Lemma fl_copy_le n i e : lenN (snd (fl_copy n i e)) <= lenN i.
Proof. unfold fl_copy. destruct (n <=? lenN i); cbn [snd]; [rewrite dropN_len; lia|rewrite lenN_nil; lia]. Qed.
Lemma fl_read_over n i e x : lenN i < n -> snd (fl_read n (i ++ [x]) e) = [].
Proof.
  intros H. unfold fl_read. rewrite lenN_app, lenN_cons, lenN_nil. destruct (N.leb_spec n (lenN i + (1 + 0))) as [Hn|]; [|reflexivity].
  cbn [snd]. assert (n = lenN (i ++ [x])) as -> by (rewrite lenN_app, lenN_cons, lenN_nil; lia).
  rewrite <- (app_nil_r (i ++ [x])) at 2. apply dropN_app. reflexivity.
Qed.
Lemma fl_copy_over n i e x : lenN i < n -> snd (fl_copy n (i ++ [x]) e) = [].
Proof.
  intros H. unfold fl_copy. rewrite lenN_app, lenN_cons, lenN_nil. destruct (N.leb_spec n (lenN i + (1 + 0))) as [Hn|]; [|reflexivity].
  cbn [snd]. assert (n = lenN (i ++ [x])) as -> by (rewrite lenN_app, lenN_cons, lenN_nil; lia).
  rewrite <- (app_nil_r (i ++ [x])) at 2. apply dropN_app. reflexivity.
Qed.

Lemma sexec_feed C E {R} (e : seff R) s b : s_ready e (s_in s) = true ->
  sexec C E e (s_feed s b) = (fst (sexec C E e s), s_feed (snd (sexec C E e s)) b).
Proof.
  intros H. destruct e; cbn [sexec s_ready] in *; try reflexivity.
  - apply N.leb_le in H. cbn [s_feed set_in s_in]. rewrite fl_read_feed by exact H. destruct (fl_read _ _ _); reflexivity.
  - apply N.leb_le in H. cbn [s_feed set_in s_in]. rewrite fl_copy_feed by exact H. destruct (fl_copy _ _ _); reflexivity.
  - change (s_step (s_feed s b)) with (s_step s). destruct (e_write _ _ _). reflexivity.
  - change (s_step (s_feed s b)) with (s_step s). destruct (e_store _ _); reflexivity.
  - change (s_heap (s_feed s b)) with (s_heap s). destruct (check_and_update _ _); reflexivity.
Qed.
Lemma cexec_feed C E {R} (e : ceff R) s b : c_ready e (c_in s) = true ->
  cexec C E e (c_feed s b) = (fst (cexec C E e s), c_feed (snd (cexec C E e s)) b).
Proof.
  intros H. destruct e; cbn [cexec c_ready] in *; try reflexivity.
  - apply N.leb_le in H. cbn [c_feed c_set_in c_in]. rewrite fl_read_feed by exact H. destruct (fl_read _ _ _); reflexivity.
  - apply N.leb_le in H. cbn [c_feed c_set_in c_in]. rewrite fl_copy_feed by exact H. destruct (fl_copy _ _ _); reflexivity.
  - change (c_step (c_feed s b)) with (c_step s). destruct (ce_write _ _ _). reflexivity.
Qed.

Lemma sexec_in_le C E {R} (e : seff R) s : lenN (s_in (snd (sexec C E e s))) <= lenN (s_in s).
Proof.
  destruct e; cbn [sexec]; try (cbn; lia).
  - pose proof (fl_read_le n (s_in s) (e_end E)). destruct (fl_read _ _ _); cbn in *; lia.
  - pose proof (fl_copy_le n (s_in s) (e_end E)). destruct (fl_copy _ _ _); cbn in *; lia.
  - destruct (e_write _ _ _); cbn; lia.
  - destruct (e_store _ _); cbn; lia.
  - destruct (check_and_update _ _); cbn; lia.
Qed.
Lemma srun_in_le C E {A} (p : sprog A) : forall s, lenN (s_in (snd (srun C E p s))) <= lenN (s_in s).
Proof.
  induction p as [a| |R e k IH]; intros s; cbn [srun]; [cbn; lia..|].
  pose proof (sexec_in_le C E e s). destruct (sexec C E e s) as [r s']. cbn in *. specialize (IH r s'). lia.
Qed.
Lemma cexec_in_le C E {R} (e : ceff R) s : lenN (c_in (snd (cexec C E e s))) <= lenN (c_in s).
Proof.
  destruct e; cbn [cexec]; try (cbn; lia).
  - pose proof (fl_read_le n (c_in s) (ce_end E)). destruct (fl_read _ _ _); cbn in *; lia.
  - pose proof (fl_copy_le n (c_in s) (ce_end E)). destruct (fl_copy _ _ _); cbn in *; lia.
  - destruct (ce_write _ _ _); cbn; lia.
Qed.
Lemma crun_in_le C E {A} (p : cprog A) : forall s, lenN (c_in (snd (crun C E p s))) <= lenN (c_in s).
Proof.
  induction p as [a| |R e k IH]; intros s; cbn [crun]; [cbn; lia..|].
  pose proof (cexec_in_le C E e s). destruct (cexec C E e s) as [r s']. cbn in *. specialize (IH r s'). lia.
Qed.

(** A run that leaves the extra octet behind never had to wait. *)
Lemma s_had C E {R} (e : seff R) s x : s_in (snd (sexec C E e (s_feed s [x]))) <> [] -> s_ready e (s_in s) = true.
Proof.
  intros H. destruct e; cbn [s_ready]; try reflexivity; apply N.leb_le; cbn [sexec s_feed set_in s_in] in H;
    apply N.nlt_ge; intros Hlt; apply H.
  - pose proof (fl_read_over n (s_in s) (e_end E) x Hlt). destruct (fl_read _ _ _); exact H0.
  - pose proof (fl_copy_over n (s_in s) (e_end E) x Hlt). destruct (fl_copy _ _ _); exact H0.
Qed.
Lemma c_had C E {R} (e : ceff R) s x : c_in (snd (cexec C E e (c_feed s [x]))) <> [] -> c_ready e (c_in s) = true.
Proof.
  intros H. destruct e; cbn [c_ready]; try reflexivity; apply N.leb_le; cbn [cexec c_feed c_set_in c_in] in H;
    apply N.nlt_ge; intros Hlt; apply H.
  - pose proof (fl_read_over n (c_in s) (ce_end E) x Hlt). destruct (fl_read _ _ _); exact H0.
  - pose proof (fl_copy_over n (c_in s) (ce_end E) x Hlt). destruct (fl_copy _ _ _); exact H0.
Qed.

(** ** The two parties *)
Record duo (A : Type) := { d_cl : cprog A; d_cs : cst; d_sp : sprog bool; d_ss : sst }.
Arguments d_cl {A}. Arguments d_cs {A}. Arguments d_sp {A}. Arguments d_ss {A}.

Definition key_of {R} (e : seff R) : option bytes :=
  match e with SStore k _ => Some k | SLoad k => Some k | _ => None end.

Definition uses {A} (x : duo A) : option bytes := next_key (d_sp x).

Section Duo.
Variables (C : Crypto) (CE : cenv) (SE : senv) (A : Type).
Notation st := (duo A).

Definition go_c (x : st) : option st :=
  match d_cl x with
  | CDo e k =>
      if c_ready e (c_in (d_cs x)) then
        let '(r, s) := cexec C CE e (d_cs x) in
        Some {| d_cl := k r; d_cs := s; d_sp := d_sp x; d_ss := s_feed (d_ss x) (c_out CE e (d_cs x)) |}
      else None
  | _ => None
  end.
Definition go_s (x : st) : option st :=
  match d_sp x with
  | SRet true => Some {| d_cl := d_cl x; d_cs := d_cs x; d_sp := conn_body C; d_ss := d_ss x |}
  | SRet false | SPanic => None
  | SDo e k =>
      if s_ready e (s_in (d_ss x)) then
        let '(r, s) := sexec C SE e (d_ss x) in
        Some {| d_cl := d_cl x; d_cs := c_feed (d_cs x) (s_out SE e (s_step (d_ss x))); d_sp := k r; d_ss := s |}
      else None
  end.
Notation path := (path st (option bytes) go_c go_s uses).

Lemma c_out_feed {R} (e : ceff R) s b : c_out CE e (c_feed s b) = c_out CE e s.
Proof. destruct e; reflexivity. Qed.
Lemma c_ready_feed {R} (e : ceff R) i b : c_ready e i = true -> c_ready e (i ++ b) = true.
Proof. destruct e; cbn; auto; rewrite !N.leb_le, lenN_app; lia. Qed.
Lemma s_ready_feed {R} (e : seff R) i b : s_ready e i = true -> s_ready e (i ++ b) = true.
Proof. destruct e; cbn; auto; rewrite !N.leb_le, lenN_app; lia. Qed.

Lemma diamond x y z : go_c x = Some y -> go_s x = Some z ->
  (exists w, go_s y = Some w /\ go_c z = Some w) /\ uses y = uses x.
Proof.
  destruct x as [cl cs sp ss]. unfold go_c at 1. unfold go_s at 1. cbn [d_cl d_cs d_sp d_ss].
  destruct cl as [a| |R e k]; try discriminate.
  destruct (c_ready e (c_in cs)) eqn:Hc; [|discriminate]. destruct (cexec C CE e cs) as [r cs'] eqn:Ec.
  intros H; injection H as <-. intros H. split; [|reflexivity].
  destruct sp as [[|]| |R' e' k']; try discriminate H.
  - injection H as <-. eexists. split; [reflexivity|]. unfold go_c. cbn [d_cl d_cs d_sp d_ss]. rewrite Hc, Ec. reflexivity.
  - destruct (s_ready e' (s_in ss)) eqn:Hs; [|discriminate H]. destruct (sexec C SE e' ss) as [r' ss'] eqn:Es.
    injection H as <-. unfold go_s, go_c. cbn [d_cl d_cs d_sp d_ss].
    rewrite sexec_feed, Es by exact Hs. cbn [fst snd].
    change (s_in (s_feed ss (c_out CE e cs))) with (s_in ss ++ c_out CE e cs). rewrite (s_ready_feed e' _ _ Hs).
    change (c_in (c_feed cs (s_out SE e' (s_step ss)))) with (c_in cs ++ s_out SE e' (s_step ss)).
    rewrite (c_ready_feed e _ _ Hc). rewrite cexec_feed, Ec by exact Hc. cbn [fst snd].
    rewrite c_out_feed. eexists. split; reflexivity.
Qed.

(** ** Sequential runs as paths *)
Fixpoint touches (P : bytes -> Prop) {B} (p : sprog B) (s : sst) : Prop :=
  match p with
  | SDo e k => (forall key, key_of e = Some key -> P key) /\ touches P (k (fst (sexec C SE e s))) (snd (sexec C SE e s))
  | _ => True
  end.

Lemma takeN_min n (b : bytes) : takeN (N.min n (lenN b)) b = takeN n b.
Proof.
  unfold takeN. destruct (N.leb_spec (lenN b) n) as [H|H]; destruct (N.leb_spec (lenN b) (N.min n (lenN b))) as [H1|H1]; try lia; try reflexivity.
  rewrite N.min_l by lia. reflexivity.
Qed.
Lemma wire_app a b : wire (a ++ b) = wire a ++ wire b.
Proof. unfold wire. rewrite map_app, concat_app. reflexivity. Qed.
Lemma wire_one b n : wire [(b, n)] = takeN n b.
Proof. unfold wire. cbn. apply app_nil_r. Qed.

Lemma sexec_out {R} (e : seff R) s : wire (s_sent (snd (sexec C SE e s))) = wire (s_sent s) ++ s_out SE e (s_step s).
Proof.
  destruct e; cbn [sexec s_out]; try (cbn; rewrite app_nil_r; reflexivity).
  - destruct (fl_read _ _ _); cbn; rewrite app_nil_r; reflexivity.
  - destruct (fl_copy _ _ _); cbn; rewrite app_nil_r; reflexivity.
  - destruct (e_write _ _ _) as [n er]. cbn [fst snd add_sent s_sent tick]. rewrite wire_app, wire_one, takeN_min. reflexivity.
  - destruct (e_store _ _); cbn; rewrite app_nil_r; reflexivity.
  - destruct (check_and_update _ _); cbn; rewrite app_nil_r; reflexivity.
Qed.
Lemma cexec_out {R} (e : ceff R) s : wire (c_sent (snd (cexec C CE e s))) = wire (c_sent s) ++ c_out CE e s.
Proof.
  destruct e; cbn [cexec c_out]; try (cbn; rewrite app_nil_r; reflexivity).
  - destruct (fl_read _ _ _); cbn; rewrite app_nil_r; reflexivity.
  - destruct (fl_copy _ _ _); cbn; rewrite app_nil_r; reflexivity.
  - destruct (ce_write _ _ _) as [n er]. cbn [fst snd c_add_sent c_sent c_tick]. rewrite wire_app, wire_one, takeN_min. reflexivity.
Qed.

Lemma s_feed_nil s : s_feed s [] = s.
Proof. unfold s_feed. rewrite app_nil_r. destruct s; reflexivity. Qed.
Lemma c_feed_nil s : c_feed s [] = s.
Proof. unfold c_feed. rewrite app_nil_r. destruct s; reflexivity. Qed.
Lemma s_feed_feed s a b : s_feed (s_feed s a) b = s_feed s (a ++ b).
Proof. unfold s_feed. cbn. rewrite app_assoc. reflexivity. Qed.
Lemma c_feed_feed s a b : c_feed (c_feed s a) b = c_feed s (a ++ b).
Proof. unfold c_feed, c_set_in. cbn. rewrite app_assoc. reflexivity. Qed.

Lemma path_srun P (p : sprog bool) : forall cl cs s x r s', srun C SE p (s_feed s [x]) = (Some r, s') -> s_in s' <> [] ->
  touches P p (s_feed s [x]) ->
  exists n t out s2, path {| d_cl := cl; d_cs := cs; d_sp := p; d_ss := s |} n t
                          {| d_cl := cl; d_cs := c_feed cs out; d_sp := SRet r; d_ss := s2 |} /\
    s' = s_feed s2 [x] /\ wire (s_sent s') = wire (s_sent s) ++ out /\
    Forall (fun l => forall key, l = Some key -> P key) t.
Proof.
  induction p as [a| |R e k IH]; intros cl cs s x r s' H Hne HT; cbn [srun touches] in H, HT.
  - injection H as <- <-. exists 0%nat, [], [], s. split; [rewrite c_feed_nil; apply path_nil|]. split; [reflexivity|].
    split; [rewrite app_nil_r; reflexivity|constructor].
  - discriminate.
  - destruct HT as [HT1 HT2].
    assert (Hr : s_ready e (s_in s) = true).
    { apply (s_had C SE e s x). intros E0. pose proof (srun_in_le C SE (k (fst (sexec C SE e (s_feed s [x])))) (snd (sexec C SE e (s_feed s [x])))) as Hle.
      destruct (sexec C SE e (s_feed s [x])) as [r0 s0]. cbn [fst snd] in *. rewrite H in Hle. cbn [snd] in Hle.
      rewrite E0 in Hle. apply Hne. destruct (s_in s'); [reflexivity|]. rewrite lenN_cons, lenN_nil in Hle. lia. }
    rewrite sexec_feed in H, HT2 by exact Hr. cbn [fst snd] in HT2.
    destruct (sexec C SE e s) as [r0 s0] eqn:Ee. cbn [fst snd] in *.
    destruct (IH r0 cl (c_feed cs (s_out SE e (s_step s))) s0 x r s' H Hne HT2) as (n & t & out & s2 & Hp & E1 & E2 & F).
    exists (S n), (key_of e :: t), (s_out SE e (s_step s) ++ out), s2. split.
    + rewrite <- c_feed_feed. change (key_of e) with (uses {| d_cl := cl; d_cs := cs; d_sp := SDo e k; d_ss := s |}).
      eapply path_r; [|exact Hp].
      unfold go_s. cbn [d_cl d_cs d_sp d_ss]. rewrite Hr, Ee. reflexivity.
    + split; [exact E1|]. split; [|constructor; [exact HT1|exact F]].
      rewrite E2. pose proof (sexec_out e s) as O. rewrite Ee in O. cbn [snd] in O. rewrite O, app_assoc. reflexivity.
Qed.

Lemma path_crun {B} (F : cprog B -> cprog A) : (forall R (e : ceff R) k, F (CDo e k) = CDo e (fun r => F (k r))) ->
  forall (p : cprog B) s sp ss x r s', crun C CE p (c_feed s [x]) = (Some r, s') -> c_in s' <> [] ->
  exists n out s2, path {| d_cl := F p; d_cs := s; d_sp := sp; d_ss := ss |} n []
                        {| d_cl := F (CRet r); d_cs := s2; d_sp := sp; d_ss := s_feed ss out |} /\
    s' = c_feed s2 [x] /\ wire (c_sent s') = wire (c_sent s) ++ out.
Proof.
  intros HF p. induction p as [a| |R e k IH]; intros s sp ss x r s' H Hne; cbn [crun] in H.
  - injection H as <- <-. exists 0%nat, [], s. split; [rewrite s_feed_nil; apply path_nil|]. split; [reflexivity|].
    rewrite app_nil_r; reflexivity.
  - discriminate.
  - assert (Hr : c_ready e (c_in s) = true).
    { apply (c_had C CE e s x). intros E0. pose proof (crun_in_le C CE (k (fst (cexec C CE e (c_feed s [x])))) (snd (cexec C CE e (c_feed s [x])))) as Hle.
      destruct (cexec C CE e (c_feed s [x])) as [r0 s0]. cbn [fst snd] in *. rewrite H in Hle. cbn [snd] in Hle.
      rewrite E0 in Hle. apply Hne. destruct (c_in s'); [reflexivity|]. rewrite lenN_cons, lenN_nil in Hle. lia. }
    rewrite cexec_feed in H by exact Hr.
    destruct (cexec C CE e s) as [r0 s0] eqn:Ee. cbn [fst snd] in *.
    destruct (IH r0 s0 sp (s_feed ss (c_out CE e s)) x r s' H Hne) as (n & out & s2 & Hp & E1 & E2).
    exists (S n), (c_out CE e s ++ out), s2. split.
    + rewrite <- s_feed_feed. rewrite HF. eapply path_l; [|exact Hp].
      unfold go_c. cbn [d_cl d_cs d_sp d_ss]. rewrite Hr, Ee. reflexivity.
    + split; [exact E1|]. rewrite E2. pose proof (cexec_out e s) as O. rewrite Ee in O. cbn [snd] in O. rewrite O, app_assoc. reflexivity.
Qed.

(** ** What requests touch *)
Lemma touches_bind P {B D} (p : sprog B) (f : B -> sprog D) : forall s,
  touches P (sbind p f) s <-> touches P p s /\ match srun C SE p s with (Some a, s') => touches P (f a) s' | _ => True end.
Proof.
  induction p as [a| |R e k IH]; intros s; cbn [sbind touches srun]; [tauto|tauto|].
  destruct (sexec C SE e s) as [r s']. cbn [fst snd]. rewrite IH. tauto.
Qed.
Lemma touches_lift P {B} (p : parser B) : forall s, touches P (slift p) s.
Proof.
  induction p as [a|er|n k IH|n k IH|n k IH]; intros s; cbn [slift touches]; auto; (split; [discriminate|apply IH]).
Qed.
End Duo.
Arguments touches C SE P {B} p s.
