(** A client and its connection when the shared counter and the replay filter
    are answered from outside: any order of their steps leads to the same end. *)
From Verif Require Import Bytes BytesProofs Parser ParserProofs Crypto Kdf Wire WireProofs WireSeq Replay SpecReplay Server
  ServerSeq SpecServer ServerProofs MultiConn SpecMulti Keys Client ClientSeq SpecClient ClientProofs SpecE2E E2EProofs
  System Kahn Duo.

Record odu (A : Type) := { x_cl : cprog A; x_cs : cst; x_k : nat; x_sp : sprog bool; x_ss : sst; x_j : nat }.
Arguments x_cl {A}. Arguments x_cs {A}. Arguments x_k {A}. Arguments x_sp {A}. Arguments x_ss {A}. Arguments x_j {A}.

(** What a step of the connection has to do with the shared memory. *)
Inductive slab := LQuiet | LLoad (k : bytes) | LCheck (p : nat) (c : N) | LSecret (p : nat) | LBad.
Definition lab_of {R} (e : seff R) : slab :=
  match e with
  | SLoad k => LLoad k | SCheck p c => LCheck p c | SSecret p => LSecret p
  | SStore _ _ | SNewSession _ => LBad | _ => LQuiet
  end.
Definition next_lab (p : sprog bool) : slab := match p with SDo e _ => lab_of e | _ => LQuiet end.

Section ODuo.
Variables (C : Crypto) (CE : cenv) (SE : senv) (A : Type) (ca : nat -> N) (ck : nat -> bool).
Notation st := (odu A).

Definition ocexec {R} (e : ceff R) (s : cst) (k : nat) : R * (cst * nat) :=
  match e in ceff R return (R * cst) -> R * (cst * nat) with
  | CAdd => fun _ => (ca k, (s, S k))
  | _ => fun rs => (fst rs, (snd rs, k))
  end (cexec C CE e s).
Definition osexec {R} (e : seff R) (s : sst) (j : nat) : R * (sst * nat) :=
  match e in seff R return (R * sst) -> R * (sst * nat) with
  | SCheck p c => fun _ => (ck j, (s, S j))
  | _ => fun rs => (fst rs, (snd rs, j))
  end (sexec C SE e s).

Definition go_oc (x : st) : option st :=
  match x_cl x with
  | CDo e k =>
      if c_ready e (c_in (x_cs x)) then
        let '(r, (s, n)) := ocexec e (x_cs x) (x_k x) in
        Some {| x_cl := k r; x_cs := s; x_k := n; x_sp := x_sp x; x_ss := s_feed (x_ss x) (c_out CE e (x_cs x)); x_j := x_j x |}
      else None
  | _ => None
  end.
Definition go_os (x : st) : option st :=
  match x_sp x with
  | SRet true => Some {| x_cl := x_cl x; x_cs := x_cs x; x_k := x_k x; x_sp := conn_body C; x_ss := x_ss x; x_j := x_j x |}
  | SRet false | SPanic => None
  | SDo e k =>
      if s_ready e (s_in (x_ss x)) then
        let '(r, (s, n)) := osexec e (x_ss x) (x_j x) in
        Some {| x_cl := x_cl x; x_cs := c_feed (x_cs x) (s_out SE e (s_step (x_ss x))); x_k := x_k x; x_sp := k r; x_ss := s; x_j := n |}
      else None
  end.
Definition olab (x : st) : slab := next_lab (x_sp x).
Notation path := (path st slab go_oc go_os olab).

Lemma osexec_feed {R} (e : seff R) s b j : s_ready e (s_in s) = true ->
  osexec e (s_feed s b) j = (fst (osexec e s j), (s_feed (fst (snd (osexec e s j))) b, snd (snd (osexec e s j)))).
Proof.
  intros H. pose proof (sexec_feed C SE e s b H) as F.
  destruct e; unfold osexec; try (rewrite F; reflexivity); reflexivity.
Qed.
Lemma ocexec_feed {R} (e : ceff R) s b k : c_ready e (c_in s) = true ->
  ocexec e (c_feed s b) k = (fst (ocexec e s k), (c_feed (fst (snd (ocexec e s k))) b, snd (snd (ocexec e s k)))).
Proof.
  intros H. pose proof (cexec_feed C CE e s b H) as F.
  destruct e; unfold ocexec; try (rewrite F; reflexivity); reflexivity.
Qed.

Lemma odiamond x y z : go_oc x = Some y -> go_os x = Some z ->
  (exists w, go_os y = Some w /\ go_oc z = Some w) /\ olab y = olab x.
Proof.
  destruct x as [cl cs ki sp ss ji]. unfold go_oc at 1. unfold go_os at 1. cbn [x_cl x_cs x_k x_sp x_ss x_j].
  destruct cl as [a| |R e k]; try discriminate.
  destruct (c_ready e (c_in cs)) eqn:Hc; [|discriminate]. destruct (ocexec e cs ki) as [r [cs' ki']] eqn:Ec.
  intros H; injection H as <-. intros H. split; [|reflexivity].
  destruct sp as [[|]| |R' e' k']; try discriminate H.
  - injection H as <-. eexists. split; [reflexivity|]. unfold go_oc. cbn [x_cl x_cs x_k x_sp x_ss x_j]. rewrite Hc, Ec. reflexivity.
  - destruct (s_ready e' (s_in ss)) eqn:Hs; [|discriminate H]. destruct (osexec e' ss ji) as [r' [ss' ji']] eqn:Es.
    injection H as <-. unfold go_os, go_oc. cbn [x_cl x_cs x_k x_sp x_ss x_j].
    rewrite osexec_feed, Es by exact Hs. cbn [fst snd].
    change (s_in (s_feed ss (c_out CE e cs))) with (s_in ss ++ c_out CE e cs). rewrite (s_ready_feed e' _ _ Hs).
    change (c_in (c_feed cs (s_out SE e' (s_step ss)))) with (c_in cs ++ s_out SE e' (s_step ss)).
    rewrite (c_ready_feed e _ _ Hc). rewrite ocexec_feed, Ec by exact Hc. cbn [fst snd].
    rewrite c_out_feed. eexists. split; reflexivity.
Qed.

(** ** Sequential runs *)
Fixpoint osrun {B} (p : sprog B) (s : sst) (j : nat) : option B * (sst * nat) :=
  match p with
  | SRet a => (Some a, (s, j))
  | SPanic => (None, (s, j))
  | SDo e k => let '(r, (s', j')) := osexec e s j in osrun (k r) s' j'
  end.
Fixpoint olabs {B} (p : sprog B) (s : sst) (j : nat) : list slab :=
  match p with
  | SDo e k => let '(r, (s', j')) := osexec e s j in lab_of e :: olabs (k r) s' j'
  | _ => []
  end.
Fixpoint ocrun {B} (p : cprog B) (s : cst) (k : nat) : option B * (cst * nat) :=
  match p with
  | CRet a => (Some a, (s, k))
  | CPanic => (None, (s, k))
  | CDo e f => let '(r, (s', k')) := ocexec e s k in ocrun (f r) s' k'
  end.
Fixpoint sdeep (d : nat) {B} (p : sprog B) {struct p} : Prop :=
  match p with SDo e k => match d with O => False | S d' => forall r, sdeep d' (k r) end | _ => True end.
Fixpoint cdeep (d : nat) {B} (p : cprog B) {struct p} : Prop :=
  match p with CDo e k => match d with O => False | S d' => forall r, cdeep d' (k r) end | _ => True end.

Lemma osexec_in_le {R} (e : seff R) s j : lenN (s_in (fst (snd (osexec e s j)))) <= lenN (s_in s).
Proof.
  pose proof (sexec_in_le C SE e s) as H.
  destruct e; try exact H; cbn; lia.
Qed.
Lemma osrun_in_le {B} (p : sprog B) : forall s j, lenN (s_in (fst (snd (osrun p s j)))) <= lenN (s_in s).
Proof.
  induction p as [a| |R e k IH]; intros s j; cbn [osrun]; [cbn; lia..|].
  pose proof (osexec_in_le e s j). destruct (osexec e s j) as [r [s' j']]. cbn in *. specialize (IH r s' j'). lia.
Qed.
Lemma ocexec_in_le {R} (e : ceff R) s k : lenN (c_in (fst (snd (ocexec e s k)))) <= lenN (c_in s).
Proof.
  pose proof (cexec_in_le C CE e s) as H.
  destruct e; try exact H; cbn; lia.
Qed.
Lemma ocrun_in_le {B} (p : cprog B) : forall s k, lenN (c_in (fst (snd (ocrun p s k)))) <= lenN (c_in s).
Proof.
  induction p as [a| |R e k IH]; intros s j; cbn [ocrun]; [cbn; lia..|].
  pose proof (ocexec_in_le e s j). destruct (ocexec e s j) as [r [s' j']]. cbn in *. specialize (IH r s' j'). lia.
Qed.
Lemma os_had {R} (e : seff R) s x j : s_in (fst (snd (osexec e (s_feed s [x]) j))) <> [] -> s_ready e (s_in s) = true.
Proof.
  intros H. destruct e; try reflexivity; apply (s_had C SE _ s x); exact H.
Qed.
Lemma oc_had {R} (e : ceff R) s x k : c_in (fst (snd (ocexec e (c_feed s [x]) k))) <> [] -> c_ready e (c_in s) = true.
Proof.
  intros H. destruct e; try reflexivity; apply (c_had C CE _ s x); exact H.
Qed.
Lemma osexec_out {R} (e : seff R) s j :
  wire (s_sent (fst (snd (osexec e s j)))) = wire (s_sent s) ++ s_out SE e (s_step s).
Proof.
  pose proof (sexec_out C SE e s) as H. destruct e; try exact H. cbn. rewrite app_nil_r. reflexivity.
Qed.
Lemma ocexec_out {R} (e : ceff R) s k :
  wire (c_sent (fst (snd (ocexec e s k)))) = wire (c_sent s) ++ c_out CE e s.
Proof.
  pose proof (cexec_out C CE e s) as H. destruct e; exact H.
Qed.

Lemma path_osrun (p : sprog bool) d : sdeep d p -> forall cl cs k s x j r s' j',
  osrun p (s_feed s [x]) j = (Some r, (s', j')) -> s_in s' <> [] ->
  exists n out s2, path {| x_cl := cl; x_cs := cs; x_k := k; x_sp := p; x_ss := s; x_j := j |} n (olabs p (s_feed s [x]) j)
                        {| x_cl := cl; x_cs := c_feed cs out; x_k := k; x_sp := SRet r; x_ss := s2; x_j := j' |} /\
    s' = s_feed s2 [x] /\ wire (s_sent s') = wire (s_sent s) ++ out /\ (n <= d)%nat.
Proof.
  revert d. induction p as [a| |R e f IH]; intros d Hd cl cs k s x j r s' j' H Hne; cbn [osrun olabs] in *.
  - injection H as <- <- <-. exists 0%nat, [], s. split; [rewrite c_feed_nil; apply path_nil|]. split; [reflexivity|].
    split; [rewrite app_nil_r; reflexivity|lia].
  - discriminate.
  - assert (Hr : s_ready e (s_in s) = true).
    { apply (os_had e s x j). intros E0.
      destruct (osexec e (s_feed s [x]) j) as [r0 [s0 j0]]. cbn [fst snd] in *.
      pose proof (osrun_in_le (f r0) s0 j0) as Hle. rewrite H in Hle. cbn [fst snd] in Hle.
      rewrite E0 in Hle. apply Hne. destruct (s_in s'); [reflexivity|]. rewrite lenN_cons, lenN_nil in Hle. lia. }
    rewrite osexec_feed in H |- * by exact Hr. pose proof (osexec_out e s j) as O.
    destruct (osexec e s j) as [r0 [s0 j0]] eqn:Ee. cbn [fst snd] in *.
    destruct d as [|d]; [contradiction|]. cbn [sdeep] in Hd.
    destruct (IH r0 d (Hd r0) cl (c_feed cs (s_out SE e (s_step s))) k s0 x j0 r s' j' H Hne) as (n & out & s2 & Hp & E1 & E2 & F).
    exists (S n), (s_out SE e (s_step s) ++ out), s2. split.
    + rewrite <- c_feed_feed.
      change (lab_of e) with (olab {| x_cl := cl; x_cs := cs; x_k := k; x_sp := SDo e f; x_ss := s; x_j := j |}).
      eapply path_r; [|exact Hp].
      unfold go_os. cbn [x_cl x_cs x_k x_sp x_ss x_j]. rewrite Hr, Ee. reflexivity.
    + split; [exact E1|]. split; [|lia]. rewrite E2, O, app_assoc. reflexivity.
Qed.

Lemma path_ocrun {B} (F : cprog B -> cprog A) : (forall R (e : ceff R) k, F (CDo e k) = CDo e (fun r => F (k r))) ->
  forall (p : cprog B) d, cdeep d p -> forall s k sp ss j x r s' k', ocrun p (c_feed s [x]) k = (Some r, (s', k')) -> c_in s' <> [] ->
  exists n out s2, path {| x_cl := F p; x_cs := s; x_k := k; x_sp := sp; x_ss := ss; x_j := j |} n []
                        {| x_cl := F (CRet r); x_cs := s2; x_k := k'; x_sp := sp; x_ss := s_feed ss out; x_j := j |} /\
    s' = c_feed s2 [x] /\ wire (c_sent s') = wire (c_sent s) ++ out /\ (n <= d)%nat.
Proof.
  intros HF p. induction p as [a| |R e f IH]; intros d Hd s k sp ss j x r s' k' H Hne; cbn [ocrun] in H.
  - injection H as <- <- <-. exists 0%nat, [], s. split; [rewrite s_feed_nil; apply path_nil|]. split; [reflexivity|].
    split; [rewrite app_nil_r; reflexivity|lia].
  - discriminate.
  - assert (Hr : c_ready e (c_in s) = true).
    { apply (oc_had e s x k). intros E0.
      destruct (ocexec e (c_feed s [x]) k) as [r0 [s0 k0]]. cbn [fst snd] in *.
      pose proof (ocrun_in_le (f r0) s0 k0) as Hle. rewrite H in Hle. cbn [fst snd] in Hle.
      rewrite E0 in Hle. apply Hne. destruct (c_in s'); [reflexivity|]. rewrite lenN_cons, lenN_nil in Hle. lia. }
    rewrite ocexec_feed in H by exact Hr. pose proof (ocexec_out e s k) as O.
    destruct (ocexec e s k) as [r0 [s0 k0]] eqn:Ee. cbn [fst snd] in *.
    destruct d as [|d]; [contradiction|]. cbn [cdeep] in Hd.
    destruct (IH r0 d (Hd r0) s0 k0 sp (s_feed ss (c_out CE e s)) j x r s' k' H Hne) as (n & out & s2 & Hp & E1 & E2 & Hn).
    exists (S n), (c_out CE e s ++ out), s2. split.
    + rewrite <- s_feed_feed. rewrite HF. eapply path_l; [|exact Hp].
      unfold go_oc. cbn [x_cl x_cs x_k x_sp x_ss x_j]. rewrite Hr, Ee. reflexivity.
    + split; [exact E1|]. split; [|lia]. rewrite E2, O, app_assoc. reflexivity.
Qed.

(** ** Programs that ask neither *)
Fixpoint quiet {B} (p : sprog B) : Prop :=
  match p with SDo e k => lab_of e = LQuiet /\ forall r, quiet (k r) | _ => True end.
Fixpoint noadd {B} (p : cprog B) : Prop :=
  match p with CDo e k => match e with CAdd => False | _ => True end /\ forall r, noadd (k r) | _ => True end.

Lemma osrun_quiet {B} (p : sprog B) : quiet p -> forall s j,
  osrun p s j = (fst (srun C SE p s), (snd (srun C SE p s), j)) /\ Forall (fun l => l = LQuiet) (olabs p s j).
Proof.
  induction p as [a| |R e k IH]; intros Hq s j; cbn [osrun srun olabs]; [split; [reflexivity|constructor]..|].
  destruct Hq as [Hl Hk].
  assert (E : osexec e s j = (fst (sexec C SE e s), (snd (sexec C SE e s), j))) by (destruct e; try discriminate Hl; reflexivity).
  rewrite E. destruct (sexec C SE e s) as [r s']. cbn [fst snd]. destruct (IH r (Hk r) s' j) as [-> F].
  split; [reflexivity|]. constructor; assumption.
Qed.
Lemma ocrun_noadd {B} (p : cprog B) : noadd p -> forall s k,
  ocrun p s k = (fst (crun C CE p s), (snd (crun C CE p s), k)).
Proof.
  induction p as [a| |R e f IH]; intros Hq s k; cbn [ocrun crun]; [reflexivity..|].
  destruct Hq as [Hl Hk].
  assert (E : ocexec e s k = (fst (cexec C CE e s), (snd (cexec C CE e s), k))) by (destruct e; try contradiction; reflexivity).
  rewrite E. destruct (cexec C CE e s) as [r s']. cbn [fst snd]. apply IH, Hk.
Qed.
Lemma osrun_bind {B D} (p : sprog B) (f : B -> sprog D) : forall s j,
  osrun (sbind p f) s j = match osrun p s j with (Some a, (s', j')) => osrun (f a) s' j' | (None, sj) => (None, sj) end.
Proof.
  induction p as [a| |R e k IH]; intros s j; cbn [sbind osrun]; [reflexivity..|].
  destruct (osexec e s j) as [r [s' j']]. apply IH.
Qed.
Lemma olabs_bind {B D} (p : sprog B) (f : B -> sprog D) : forall s j,
  olabs (sbind p f) s j = olabs p s j ++ match osrun p s j with (Some a, (s', j')) => olabs (f a) s' j' | _ => [] end.
Proof.
  induction p as [a| |R e k IH]; intros s j; cbn [sbind osrun olabs]; [reflexivity..|].
  destruct (osexec e s j) as [r [s' j']]. cbn. rewrite IH. reflexivity.
Qed.
Lemma quiet_lift {B} (p : parser B) : quiet (slift p).
Proof. induction p as [a|er|n k IH|n k IH|n k IH]; cbn [slift quiet]; auto. Qed.

(** ** Monotone facts about paths *)
Lemma go_os_same x y : go_os x = Some y -> x_cl y = x_cl x /\ x_k y = x_k x /\ (x_j x <= x_j y)%nat /\
  exists l, s_calls (x_ss y) = s_calls (x_ss x) ++ l.
Proof.
  unfold go_os. destruct (x_sp x) as [[|]| |R e k]; try discriminate.
  - intros H; injection H as <-. cbn. repeat split; auto. exists []. rewrite app_nil_r. reflexivity.
  - destruct (s_ready _ _); [|discriminate].
    assert (Q : (x_j x <= snd (snd (osexec e (x_ss x) (x_j x))))%nat /\ exists l, s_calls (fst (snd (osexec e (x_ss x) (x_j x)))) = s_calls (x_ss x) ++ l).
    { destruct e; cbn [osexec sexec]; try (cbn; split; [lia|]; exists []; rewrite app_nil_r; reflexivity).
      - cbn. destruct (fl_read _ _ _). split; [lia|]. exists []; cbn; rewrite app_nil_r; reflexivity.
      - cbn. destruct (fl_copy _ _ _). split; [lia|]. exists []; cbn; rewrite app_nil_r; reflexivity.
      - cbn. destruct (e_write _ _ _). split; [lia|]. exists []; cbn; rewrite app_nil_r; reflexivity.
      - cbn. destruct (e_store _ _); (split; [lia|]); exists []; cbn; rewrite app_nil_r; reflexivity.
      - cbn. split; [lia|]. eexists. reflexivity. }
    destruct (osexec e (x_ss x) (x_j x)) as [r [s j]]. intros H; injection H as <-. cbn in *. tauto.
Qed.
Lemma go_oc_same x y : go_oc x = Some y -> s_calls (x_ss y) = s_calls (x_ss x) /\ x_j y = x_j x /\ (x_k x <= x_k y)%nat.
Proof.
  unfold go_oc. destruct (x_cl x) as [| |R e k]; try discriminate. destruct (c_ready _ _); [|discriminate].
  assert (Q : (x_k x <= snd (snd (ocexec e (x_cs x) (x_k x))))%nat) by (destruct e; cbn; try lia; unfold ocexec; cbn [snd]; lia).
  destruct (ocexec e (x_cs x) (x_k x)) as [r [s j]]. intros H; injection H as <-. cbn in *. auto.
Qed.
Lemma opath_mono y m t z : path y m t z -> (x_k y <= x_k z)%nat /\ (x_j y <= x_j z)%nat /\
  exists l, s_calls (x_ss z) = s_calls (x_ss y) ++ l.
Proof.
  induction 1 as [x|x y z n t Hl Hp IH|x y z n t Hr Hp IH].
  - repeat split; auto. exists []. rewrite app_nil_r. reflexivity.
  - apply go_oc_same in Hl as (H1 & H2 & H3). destruct IH as (I1 & I2 & l & I3). repeat split; try lia.
    exists l. rewrite I3, H1. reflexivity.
  - apply go_os_same in Hr as (H1 & H2 & H3 & l1 & H4). destruct IH as (I1 & I2 & l & I3). repeat split; try lia.
    exists (l1 ++ l). rewrite I3, H4, app_assoc. reflexivity.
Qed.
Lemma opath_done y m t z : path y m t z -> (forall a, x_cl y = CRet a -> x_cl z = CRet a) /\ (x_cl y = CPanic -> x_cl z = CPanic).
Proof.
  induction 1 as [x|x y z n t Hl Hp IH|x y z n t Hr Hp IH]; [auto| |].
  - unfold go_oc in Hl. split; [intros a Ha|intros Ha]; rewrite Ha in Hl; discriminate.
  - apply go_os_same in Hr as (E & _). rewrite E in IH. exact IH.
Qed.
End ODuo.
