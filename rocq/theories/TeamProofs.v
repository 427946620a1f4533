(** Clients that share a session: every pair of a client and its connection goes
    its own way, whatever the shared counter and the replay filter answer. *)
From Verif Require Import Bytes BytesProofs Parser ParserProofs Crypto Kdf Wire WireProofs WireSeq Replay SpecReplay ReplayProofs
  ReplayConcProofs Server ServerSeq SpecServer ServerProofs ServerProps ServerProps2 MultiConn SpecMulti MultiProofs Keys
  Client ClientSeq SpecClient ClientProofs SpecE2E E2EProofs System SpecSystem Team SpecTeam Kahn Duo DuoRun ODuo ODuoRun SystemSim.

Lemma cexec_ctr C CE {R} (e : ceff R) s c : match e with CAdd => False | _ => True end ->
  cexec C CE e (c_set_ctr s c) = (fst (cexec C CE e s), c_set_ctr (snd (cexec C CE e s)) c).
Proof.
  intros H. destruct e; try contradiction; try reflexivity; cbn [cexec].
  - change (c_in (c_set_ctr s c)) with (c_in s). destruct (fl_read _ _ _); reflexivity.
  - change (c_in (c_set_ctr s c)) with (c_in s). destruct (fl_copy _ _ _); reflexivity.
  - change (c_step (c_set_ctr s c)) with (c_step s). destruct (ce_write _ _ _); reflexivity.
Qed.
Lemma c_out_ctr CE {R} (e : ceff R) s c : c_out CE e (c_set_ctr s c) = c_out CE e s.
Proof. destruct e; reflexivity. Qed.
Lemma mem_of_join m c : mem_of (join m c) = m.
Proof. destruct m; reflexivity. Qed.

Lemma sexec_mem C E {R} (e : seff R) m c : match lab_of e with LQuiet | LLoad _ | LSecret _ => True | _ => False end ->
  mem_of (snd (sexec C E e (join m c))) = m.
Proof.
  intros H. destruct e; try contradiction H; try (destruct m; reflexivity); cbn [sexec].
  - destruct (fl_read _ _ _). destruct m; reflexivity.
  - destruct (fl_copy _ _ _). destruct m; reflexivity.
  - destruct (e_write _ _ _). destruct m; reflexivity.
Qed.

Fixpoint sumT (g : nat -> nat) (T : nat) : nat := match T with O => O | S k => (sumT g k + g k)%nat end.
Lemma sumT_ext g h T : (forall i, (i < T)%nat -> g i = h i) -> sumT g T = sumT h T.
Proof. induction T as [|T IH]; intros H; cbn; [reflexivity|]. rewrite IH, H by auto. reflexivity. Qed.
Lemma sumT_le g h T : (forall i, (i < T)%nat -> g i <= h i)%nat -> (sumT g T <= sumT h T)%nat.
Proof. induction T as [|T IH]; intros H; cbn; [lia|]. pose proof (H T ltac:(lia)). specialize (IH (fun i Hi => H i ltac:(lia))). lia. Qed.
Lemma sumT_at g h T i : (i < T)%nat -> (forall k, k <> i -> h k = g k) -> (sumT h T + g i = sumT g T + h i)%nat.
Proof.
  induction T as [|T IH]; intros Hi H; [lia|]. cbn. destruct (Nat.eq_dec i T) as [->|Hne].
  - rewrite (sumT_ext h g) by (intros k Hk; apply H; lia). lia.
  - rewrite (H T) by auto. specialize (IH ltac:(lia) H). lia.
Qed.
Lemma total_sum ps T : total ps T = sumT (fun i => length (ps i)) T.
Proof. induction T as [|T IH]; cbn; [reflexivity|]. rewrite IH. reflexivity. Qed.

Lemma at_same {B} (g : nat -> B) i b : at_i g i b i = b.
Proof. unfold at_i. rewrite Nat.eqb_refl. reflexivity. Qed.
Lemma at_other {B} (g : nat -> B) i b j : j <> i -> at_i g i b j = g j.
Proof. intros H. unfold at_i. rewrite eqb_ne by exact H. reflexivity. Qed.

Definition fits {B} (g : nat -> B) (l : list B) : Prop := forall k a, nth_error l k = Some a -> g k = a.
Lemma fits_snoc {B} (g : nat -> B) l a : fits g (l ++ [a]) -> fits g l /\ g (length l) = a.
Proof.
  intros H. split.
  - intros k b Hk. apply H. rewrite nth_error_app1; [exact Hk|]. apply nth_error_Some. congruence.
  - apply H. rewrite nth_error_app2, Nat.sub_diag by lia. reflexivity.
Qed.
Lemma fits_nth {B} (l : list B) d : fits (fun k => nth k l d) l.
Proof. intros k a H. apply nth_error_nth, H. Qed.
Definition valid (ca : nat -> N) : Prop := forall k, ca k <> 0 /\ ca k < 2 ^ 64.

Section Team.
Variables (C : Crypto) (CE : nat -> cenv) (E : nat -> senv) (tcp : nat -> bool) (T : nat) (inputs : nat -> bytes) (m0 : mem)
  (chost : bytes) (ses : csession) (hist : list N) (c0 : N) (q0 : nat) (o : copts) (n : N) (f : bytes -> bytes) (ps : nat -> list bytes).
Notation A := (list rd_result).
Let key := session_key C chost (cs_id ses).
Let K (k : bytes) : bool := bytes_eqb k key.

Hypothesis L : CryptoLaws C.
Hypothesis WC : forall i, (i < T)%nat -> c_works (CE i).
Hypothesis WS : forall i, (i < T)%nat -> writes_all (E i).
Hypothesis Q : forall i, (i < T)%nat -> forall k, e_quit (E i) k = false.
Hypothesis Hh : forall i, (i < T)%nat -> e_host (E i) = Some chost.
Hypothesis Htcp : forall i, (i < T)%nat -> tcp i = true.
Hypothesis Hid : length (cs_id ses) = 16%nat.
Hypothesis Hsane : sane m0.
Hypothesis Hmap : m_map m0 key = Some q0.
Hypothesis Hheap : m_heap m0 q0 = {| ses_secret := cs_secret ses; ses_win := snd (checks new_window hist) |}.
Hypothesis Hhist : Forall (fun c => c <= c0) hist.
Hypothesis Hlen : c0 + N.of_nat (total ps T) < 2 ^ 64.
Hypothesis Hp : forall i, (i < T)%nat -> Forall (fun p => lenN p + 16 <= 2 ^ 30) (ps i).
Hypothesis Hf : forall i k p, (i < T)%nat -> In p (ps i) -> e_handler (E i) k (co_reply o) p = HOk (f p).
Hypothesis Hr : forall i, (i < T)%nat -> co_reply o = true -> Forall (fun p => f p <> [] /\ lenN (f p) + 16 <= 2 ^ 30 /\ lenN (f p) <= n) (ps i).

Notation tm := (team_move C CE E tcp T).
Notation conn_at x i := (t_conn (z_srv x) i).
Definition yi (x : team A) (k j i : nat) : odu A :=
  odu_at (z_cl x i) (c_set_ctr (z_cs x i) 0) k (c_prog (conn_at x i)) (join m0 (conn_at x i)) j.
Notation go_oc i ca := (go_oc C (CE i) A ca).
Notation go_os i ck := (go_os C (E i) A ck).
Notation opath i ca ck := (path (odu A) slab (go_oc i ca) (go_os i ck) (olab A)).

(** ** Single moves *)
Lemma move_client (x x' : team A) i : tm x (TClient i) = Some x' ->
  (i < T)%nat /\ t_mem (z_srv x') = t_mem (z_srv x) /\
  (forall i', i' <> i -> conn_at x' i' = conn_at x i' /\ forall k j, yi x' k j i' = yi x k j i') /\
  ((z_ctr x' = (z_ctr x + 1) mod two64 /\ (forall ca k j, exists y, go_oc i ca (yi x k j i) = Some y /\ x_k y = S k) /\
    forall ca k j, ca k = z_ctr x' -> go_oc i ca (yi x k j i) = Some (yi x' (S k) j i)) \/
   (z_ctr x' = z_ctr x /\ forall ca k j, go_oc i ca (yi x k j i) = Some (yi x' k j i))).
Proof.
  unfold team_move. destruct (Nat.ltb_spec i T) as [Hi|]; [|discriminate].
  destruct (z_cl x i) as [| |R e g] eqn:Ecl; try discriminate.
  destruct (c_ready e _) eqn:Er; [|discriminate].
  intros H. split; [exact Hi|].
  assert (D : (exists P : R = N, match e in ceff R return Prop with CAdd => True | _ => False end) \/ match e with CAdd => False | _ => True end).
  { destruct e; try (right; exact I). left. exists eq_refl. exact I. }
  destruct D as [[_ D]|D].
  - destruct e; try contradiction. cbn [cexec] in H. injection H as <-.
    split; [reflexivity|]. split.
    + intros i' Hi'. cbn. rewrite (eqb_ne _ _ Hi'). split; [reflexivity|]. intros k j. unfold yi. cbn.
      rewrite !at_other, (eqb_ne _ _ Hi') by exact Hi'. reflexivity.
    + left. split; [reflexivity|]. split.
      { intros ca k j. unfold ODuo.go_oc, yi, odu_at. cbn [x_cl x_cs x_k x_sp x_ss x_j]. rewrite Ecl. eexists. split; reflexivity. }
      intros ca k j Hca. unfold ODuo.go_oc, yi, odu_at. cbn [x_cl x_cs x_k x_sp x_ss x_j]. rewrite Ecl.
      cbn [c_ready ocexec fst snd]. cbn [z_ctr] in Hca. rewrite Hca. cbn. rewrite !at_same, Nat.eqb_refl. reflexivity.
  - rewrite (cexec_ctr C (CE i) e _ _ D) in H. destruct (cexec C (CE i) e (z_cs x i)) as [r s] eqn:Ex. cbn [fst snd] in H. injection H as <-.
    split; [reflexivity|]. split.
    + intros i' Hi'. cbn. rewrite (eqb_ne _ _ Hi'). split; [reflexivity|]. intros k j. unfold yi. cbn.
      rewrite !at_other, (eqb_ne _ _ Hi') by exact Hi'. reflexivity.
    + right. split; [reflexivity|]. intros ca k j. unfold ODuo.go_oc, yi, odu_at. cbn [x_cl x_cs x_k x_sp x_ss x_j]. rewrite Ecl.
      change (c_in (c_set_ctr (z_cs x i) 0)) with (c_in (c_set_ctr (z_cs x i) (z_ctr x))). rewrite Er.
      assert (Eo : ocexec C (CE i) ca e (c_set_ctr (z_cs x i) 0) k = (r, (c_set_ctr s 0, k))).
      { pose proof (cexec_ctr C (CE i) e (z_cs x i) 0 D) as Ec. rewrite Ex in Ec. cbn [fst snd] in Ec.
        destruct e; try contradiction; unfold ocexec; rewrite Ec; reflexivity. }
      rewrite Eo. cbn. rewrite !at_same, Nat.eqb_refl, !c_out_ctr. reflexivity.
Qed.

Lemma stuck_client (x : team A) i ca k j : (i < T)%nat -> tm x (TClient i) = None <-> go_oc i ca (yi x k j i) = None.
Proof.
  intros Hi. unfold team_move, ODuo.go_oc, yi, odu_at. cbn [x_cl x_cs x_k x_sp x_ss x_j].
  destruct (Nat.ltb_spec i T) as [_|]; [|lia]. destruct (z_cl x i) as [| |R e g]; try tauto.
  change (c_in (c_set_ctr (z_cs x i) (z_ctr x))) with (c_in (c_set_ctr (z_cs x i) 0)).
  destruct (c_ready e _); [|tauto]. destruct (cexec C (CE i) e _) as [r s]. destruct (ocexec _ _ _ _ _ _) as [r' [s' k']].
  split; discriminate.
Qed.

Lemma stuck_serve (x : team A) i ck k j : (i < T)%nat -> tm x (TServe i) = None <-> go_os i ck (yi x k j i) = None.
Proof.
  intros Hi. unfold team_move, ODuo.go_os, yi, odu_at. cbn [x_cl x_cs x_k x_sp x_ss x_j]. cbv zeta.
  destruct (Nat.ltb_spec i T) as [_|]; [|lia]. rewrite (Htcp i Hi).
  destruct (c_prog (conn_at x i)) as [[|]| |R e g]; try tauto; try (split; discriminate).
  change (s_in (join m0 (conn_at x i))) with (MultiConn.c_in (conn_at x i)).
  destruct (s_ready e _); [|tauto]. destruct (osexec _ _ _ _ _ _) as [r' [s' k']].
  split; discriminate.
Qed.

Definition upd_win (m : mem) (w : window) : mem :=
  {| m_map := m_map m;
     m_heap := fun p => if Nat.eqb p q0 then {| ses_secret := ses_secret (m_heap m q0); ses_win := w |} else m_heap m p;
     m_next := m_next m |}.

Lemma move_serve (x x' : team A) i : tm x (TServe i) = Some x' ->
  m_map (t_mem (z_srv x)) key = Some q0 -> ses_secret (m_heap (t_mem (z_srv x)) q0) = cs_secret ses ->
  ODuoRun.good key q0 (next_lab (c_prog (conn_at x i))) ->
  (i < T)%nat /\ z_ctr x' = z_ctr x /\
  (forall i', i' <> i -> conn_at x' i' = conn_at x i' /\ forall k j, yi x' k j i' = yi x k j i') /\
  ((exists c, next_lab (c_prog (conn_at x i)) = LCheck q0 c /\ next_check (c_prog (conn_at x i)) = Some c /\
      let r := check_and_update (ses_win (m_heap (t_mem (z_srv x)) q0)) c in
      t_mem (z_srv x') = upd_win (t_mem (z_srv x)) (snd r) /\
      forall ck k j, ck j = fst r -> go_os i ck (yi x k j i) = Some (yi x' k (S j) i)) \/
   (next_check (c_prog (conn_at x i)) = None /\ checked [next_lab (c_prog (conn_at x i))] = [] /\
    t_mem (z_srv x') = t_mem (z_srv x) /\
    forall ck k j, go_os i ck (yi x k j i) = Some (yi x' k j i))).
Proof.
  unfold team_move. destruct (Nat.ltb_spec i T) as [Hi|]; [|discriminate]. cbv zeta.
  intros H Hm Hs G. split; [exact Hi|].
  assert (Oth : forall x'' srv cs', x'' = {| z_cl := z_cl x; z_cs := cs'; z_ctr := z_ctr x; z_srv := srv |} ->
    (forall i', i' <> i -> cs' i' = z_cs x i') -> srv = mstep C E tcp (z_srv x) (AConn i) ->
    forall i', i' <> i -> conn_at x'' i' = conn_at x i' /\ forall k j, yi x'' k j i' = yi x k j i').
  { intros x'' srv cs' -> Hcs -> i' Hi'. unfold yi. cbn. rewrite (eqb_ne _ _ Hi'), (Hcs i' Hi'). split; reflexivity. }
  destruct (c_prog (conn_at x i)) as [[|]| |R e g] eqn:Ep; try discriminate H.
  - rewrite (Htcp i Hi) in H. injection H as <-. split; [reflexivity|]. split; [eapply Oth; [reflexivity|auto|reflexivity]|].
    right. split; [reflexivity|]. split; [reflexivity|]. cbn. unfold conn_step. rewrite Ep, (Htcp i Hi). split; [reflexivity|].
    intros ck k j. unfold ODuo.go_os, yi, odu_at. cbn. rewrite Ep, Nat.eqb_refl. unfold conn_step. rewrite ?Ep, ?(Htcp i Hi). reflexivity.
  - destruct (s_ready e _) eqn:Er; [|discriminate H]. injection H as <-. split; [reflexivity|].
    split; [eapply Oth; [reflexivity|intros; apply at_other; assumption|reflexivity]|].
    cbn [next_lab next_check] in *.
    assert (Go : forall ck k j r s j', osexec C (E i) ck e (join m0 (conn_at x i)) j = (r, (s, j')) ->
      conn_of (g r) s = snd (conn_step C (E i) (tcp i) (t_mem (z_srv x)) (conn_at x i)) ->
      join m0 (conn_of (g r) s) = s ->
      go_os i ck (yi x k j i) = Some (yi {| z_cl := z_cl x;
        z_cs := at_i (z_cs x) i (c_feed (z_cs x i) (s_out (E i) e (MultiConn.c_step (conn_at x i)))); z_ctr := z_ctr x;
        z_srv := mstep C E tcp (z_srv x) (AConn i) |} k j' i)).
    { intros ck k j r s j' Eo Ec Ej. unfold ODuo.go_os, yi, odu_at. cbn [x_cl x_cs x_k x_sp x_ss x_j]. rewrite Ep.
      change (s_in (join m0 (conn_at x i))) with (MultiConn.c_in (conn_at x i)). rewrite Er, Eo.
      cbn. rewrite Nat.eqb_refl, at_same, <- Ec, Ej. reflexivity. }
    unfold conn_step in Go. rewrite Ep in Go.
    assert (Me : match lab_of e with LQuiet | LLoad _ | LSecret _ => True | _ => False end ->
      t_mem (mstep C E tcp (z_srv x) (AConn i)) = t_mem (z_srv x)).
    { intros Hl. cbn [mstep set_conn t_mem fst]. unfold conn_step. rewrite Ep.
      pose proof (sexec_mem C (E i) e (t_mem (z_srv x)) (conn_at x i) Hl) as X. destruct (sexec _ _ _ _) as [r s]. exact X. }
    destruct e; cbn [lab_of ODuoRun.good next_check] in *; try contradiction;
      try (right; split; [reflexivity|]; split; [reflexivity|]; split; [exact (Me I)|];
           intros ck k j; eapply Go; [reflexivity|reflexivity|reflexivity]).
    + right. split; [reflexivity|]. split; [reflexivity|]. split; [exact (Me I)|]. cbn [sexec] in Go.
      change (s_in (join (t_mem (z_srv x)) (conn_at x i))) with (MultiConn.c_in (conn_at x i)) in *.
      destruct (fl_read n0 (MultiConn.c_in (conn_at x i)) (e_end (E i))) as [r0 i0] eqn:Ef.
      intros ck k j. eapply Go.
      * cbn [osexec sexec]. change (s_in (join m0 (conn_at x i))) with (MultiConn.c_in (conn_at x i)). rewrite Ef. reflexivity.
      * reflexivity.
      * reflexivity.
    + right. split; [reflexivity|]. split; [reflexivity|]. split; [exact (Me I)|]. cbn [sexec] in Go.
      change (s_in (join (t_mem (z_srv x)) (conn_at x i))) with (MultiConn.c_in (conn_at x i)) in *.
      destruct (fl_copy n0 (MultiConn.c_in (conn_at x i)) (e_end (E i))) as [r0 i0] eqn:Ef.
      intros ck k j. eapply Go.
      * cbn [osexec sexec]. change (s_in (join m0 (conn_at x i))) with (MultiConn.c_in (conn_at x i)). rewrite Ef. reflexivity.
      * reflexivity.
      * reflexivity.
    + right. split; [reflexivity|]. split; [reflexivity|]. split; [exact (Me I)|]. cbn [sexec] in Go.
      change (s_step (join (t_mem (z_srv x)) (conn_at x i))) with (MultiConn.c_step (conn_at x i)) in *.
      destruct (e_write (E i) (MultiConn.c_step (conn_at x i)) b) as [r0 i0] eqn:Ef.
      intros ck k j. eapply Go.
      * cbn [osexec sexec]. change (s_step (join m0 (conn_at x i))) with (MultiConn.c_step (conn_at x i)). rewrite Ef. reflexivity.
      * reflexivity.
      * reflexivity.
    + right. split; [reflexivity|]. split; [reflexivity|]. split; [exact (Me I)|]. intros ck k j. eapply Go.
      * reflexivity.
      * cbn [osexec sexec fst snd join s_map]. rewrite G, Hm, Hmap. reflexivity.
      * reflexivity.
    + right. split; [reflexivity|]. split; [reflexivity|]. split; [exact (Me I)|]. intros ck k j. eapply Go.
      * reflexivity.
      * cbn [osexec sexec fst snd join s_heap]. rewrite G, Hs, Hheap. reflexivity.
      * reflexivity.
    + left. exists c. split; [rewrite G; reflexivity|]. split; [reflexivity|]. cbn zeta.
      split.
      * cbn [z_srv mstep set_conn t_mem fst]. unfold conn_step. rewrite Ep. cbn [sexec join s_heap]. rewrite G.
        destruct (check_and_update _ c). reflexivity.
      * intros ck k j Hck. cbn [sexec join s_heap] in Go. rewrite G in Go.
        destruct (check_and_update (ses_win (m_heap (t_mem (z_srv x)) q0)) c) as [r w] eqn:Ecu. cbn [fst snd] in Hck.
        rewrite G. eapply Go.
        -- cbn [osexec]. rewrite Hck. reflexivity.
        -- reflexivity.
        -- reflexivity.
Qed.

(** ** The memory *)
Definition memok (x : team A) (w : window) : Prop :=
  m_map (t_mem (z_srv x)) key = Some q0 /\
  m_heap (t_mem (z_srv x)) q0 = {| ses_secret := cs_secret ses; ses_win := w |} /\
  exists fr Nn m', rel K fr Nn (t_mem (z_srv x)) m' /\
    forall j, (T <= j)%nat -> nrel any (e_host (E j)) Nn (conn_at x j).

Lemma K_key : K key = true.
Proof. unfold K. destruct (bytes_eqb_spec key key); congruence. Qed.
Lemma K_ne k : k <> key -> K k = false.
Proof. unfold K. destruct (bytes_eqb_spec k key); congruence. Qed.

Lemma memok_keep x x' w : memok x w -> t_mem (z_srv x') = t_mem (z_srv x) ->
  (forall j, (T <= j)%nat -> conn_at x' j = conn_at x j) -> memok x' w.
Proof.
  intros (M1 & M2 & fr & Nn & m' & R & O) Em Ec. unfold memok. rewrite Em. split; [exact M1|]. split; [exact M2|].
  exists fr, Nn, m'. split; [exact R|]. intros j Hj. rewrite Ec by exact Hj. apply O, Hj.
Qed.

Lemma memok_check x x' w w' : memok x w -> t_mem (z_srv x') = upd_win (t_mem (z_srv x)) w' ->
  (forall j, (T <= j)%nat -> conn_at x' j = conn_at x j) -> memok x' w'.
Proof.
  intros (M1 & M2 & fr & Nn & m' & R & O) Em Ec. unfold memok. rewrite Em. split; [exact M1|]. cbn [upd_win m_heap].
  rewrite Nat.eqb_refl, M2. split; [reflexivity|].
  destruct R as [Rf Ri Rl Rh Ro Rlo Rd Rot].
  pose proof (Ro key K_key) as Ok. rewrite M1 in Ok. destruct (m_map m' key) as [b|] eqn:Eb; [|contradiction].
  exists fr, Nn, {| m_map := m_map m';
                    m_heap := fun p => if Nat.eqb p b then {| ses_secret := cs_secret ses; ses_win := w' |} else m_heap m' p;
                    m_next := m_next m' |}.
  split.
  - constructor; cbn; auto. intros a b0 H. destruct (Nat.eqb_spec a q0) as [->|Hne].
    + rewrite (Rf _ _ _ H Ok), Nat.eqb_refl, M2. reflexivity.
    + rewrite eqb_ne; [apply Rh, H|]. intros ->. apply Hne. eapply Ri; eassumption.
  - intros j Hj. rewrite Ec by exact Hj. apply O, Hj.
Qed.

Lemma memok_others x v x' w : memok x w -> team_spares1 key x v -> tm x v = Some x' ->
  match v with TClient _ | TServe _ => True | _ =>
    memok x' w /\ z_ctr x' = z_ctr x /\ forall i, (i < T)%nat -> conn_at x' i = conn_at x i /\ forall k j, yi x' k j i = yi x k j i end.
Proof.
  intros (M1 & M2 & fr & Nn & m' & R & O) Hsp Hm. destruct v as [| |j|j b|k]; try exact I; unfold team_move in Hm.
  - destruct (Nat.ltb_spec j T) as [|Hj]; [discriminate|]. injection Hm as <-. cbn [team_spares1] in Hsp.
    assert (HK' : forall k, next_key (c_prog (conn_at x j)) = Some k -> K k = false).
    { intros k Hk. apply K_ne. congruence. }
    destruct (n_step C (E j) (tcp j) K any fr Nn _ _ _ (any_own C _) HK' R (O j Hj)) as (N' & Hs & R' & C').
    split; [|split; [reflexivity|]].
    + unfold memok. cbn [z_srv mstep set_conn t_mem t_conn].
      pose proof (r_own _ _ _ _ _ R key K_key) as Ok. rewrite M1 in Ok. destruct (m_map m' key) as [b|] eqn:Eb; [|contradiction].
      pose proof (r_own _ _ _ _ _ R' key K_key) as Ok'. rewrite Eb in Ok'.
      destruct (m_map (fst (conn_step C (E j) (tcp j) (t_mem (z_srv x)) (conn_at x j))) key) as [a|] eqn:Ea; [|contradiction].
      pose proof (r_inj _ _ _ _ _ R _ _ _ Ok' Ok). subst a. split; [reflexivity|]. split.
      * rewrite (r_heap _ _ _ _ _ R' _ _ Ok'), <- (r_heap _ _ _ _ _ R _ _ Ok). exact M2.
      * exists fr, N', m'. split; [exact R'|]. intros j' Hj'. destruct (Nat.eqb_spec j' j) as [->|Hne]; [exact C'|].
        eapply nrel_mono; [exact Hs|]. apply O, Hj'.
    + intros i Hi. unfold yi. cbn. rewrite eqb_ne by lia. split; reflexivity.
  - destruct (Nat.ltb_spec j T) as [|Hj]; [discriminate|]. injection Hm as <-.
    split; [|split; [reflexivity|]].
    + unfold memok. cbn [z_srv feed t_mem t_conn]. split; [exact M1|]. split; [exact M2|]. exists fr, Nn, m'. split; [exact R|].
      intros j' Hj'. unfold feed, set_conn. cbn [t_conn fst snd]. destruct (Nat.eqb_spec j' j) as [->|Hne]; [exact (O j Hj)|apply O, Hj'].
    + intros i Hi. unfold yi. cbn. rewrite eqb_ne by lia. split; reflexivity.
  - injection Hm as <-. cbn [team_spares1] in Hsp. split; [|split; [reflexivity|]].
    + unfold memok. cbn [z_srv mstep t_mem t_conn collect m_map m_heap].
      destruct (bytes_eqb_spec key k) as [E0|_]; [congruence|]. split; [exact M1|]. split; [exact M2|]. exists fr, Nn, m'. split; [|exact O].
      destruct R as [Rf Ri Rl Rh Ro Rlo Rd Rot]. constructor; cbn; auto.
      * intros q Hq. destruct (bytes_eqb_spec q k) as [->|]; [rewrite (K_ne _ Hsp) in Hq; discriminate|apply Ro, Hq].
      * intros q a Hq Ha. destruct (bytes_eqb q k); [discriminate|eauto].
    + intros i Hi. split; reflexivity.
Qed.

(** ** A client and its connection *)
Definition pinv (i : nat) (adds : list N) (chks : list bool) (rem : nat) (x : team A) : Prop :=
  forall ca ck, valid ca -> fits ca adds -> fits ck chks -> exists m t z,
    opath i ca ck (yi x (length adds) (length chks) i) m t z /\ ends _ (go_oc i ca) (go_os i ck) z /\ (m <= rem)%nat /\
    Forall (ODuoRun.good key q0) t /\ checked t = map ca (seq (length chks) (length (ps i) - length chks)) /\
    x_cl z = CRet (team_result o f (ps i) (oks ck 0 (ps i))) /\ x_k z = length (ps i) /\ x_j z = length (ps i) /\
    seen (s_calls (x_ss z)) = ocalls o ca ck 0 (ps i).

Lemma pinv_eq i adds chks rem x x' : (forall k j, yi x' k j i = yi x k j i) -> pinv i adds chks rem x -> pinv i adds chks rem x'.
Proof. intros H P ca ck V F1 F2. rewrite H. apply P; assumption. Qed.

Record inv (x : team A) (adds : nat -> list N) (chks : nat -> list bool) (H : list N) (rem : nat -> nat) : Prop := {
  v_ctr : z_ctr x = c0 + N.of_nat (sumT (fun i => length (adds i)) T);
  v_range : forall i j a, nth_error (adds i) j = Some a -> c0 < a <= z_ctr x;
  v_inj : forall i j i' j' a, nth_error (adds i) j = Some a -> nth_error (adds i') j' = Some a -> i = i' /\ j = j';
  v_seen : forall c, In c H -> c <= c0 \/ exists i j, (j < length (chks i))%nat /\ nth_error (adds i) j = Some c;
  v_mem : memok x (snd (checks new_window H));
  v_len : forall i, (i < T)%nat -> (length (adds i) <= length (ps i))%nat;
  v_pair : forall i, (i < T)%nat -> pinv i (adds i) (chks i) (rem i) x }.

Lemma inv_bound x adds chks H rem : inv x adds chks H rem -> z_ctr x < 2 ^ 64.
Proof.
  intros I. rewrite (v_ctr _ _ _ _ _ I).
  pose proof (sumT_le (fun i => length (adds i)) (fun i => length (ps i)) T (v_len _ _ _ _ _ I)) as B. rewrite <- total_sum in B. lia.
Qed.
Definition some_ca (l : list N) (d : N) (k : nat) : N := nth k l d.
Lemma some_valid x adds chks H rem i d : inv x adds chks H rem -> d <> 0 -> d < 2 ^ 64 -> valid (some_ca (adds i) d).
Proof.
  intros I Hd Hd' k. unfold some_ca. destruct (nth_error (adds i) k) as [a|] eqn:Ea.
  - rewrite (nth_error_nth _ _ d Ea). pose proof (v_range _ _ _ _ _ I _ _ _ Ea). pose proof (inv_bound _ _ _ _ _ I). lia.
  - apply nth_error_None in Ea. rewrite nth_overflow by exact Ea. auto.
Qed.

(** A pair of oracles there is in any case. *)
Lemma inv_some x adds chks H rem i d : inv x adds chks H rem -> (i < T)%nat -> d <> 0 -> d < 2 ^ 64 -> exists m t z,
    let ca := some_ca (adds i) d in let ck := fun k => nth k (chks i) true in
    valid ca /\ fits ca (adds i) /\ fits ck (chks i) /\
    opath i ca ck (yi x (length (adds i)) (length (chks i)) i) m t z /\ ends _ (go_oc i ca) (go_os i ck) z /\ (m <= rem i)%nat /\
    Forall (ODuoRun.good key q0) t /\ checked t = map ca (seq (length (chks i)) (length (ps i) - length (chks i))) /\
    x_cl z = CRet (team_result o f (ps i) (oks ck 0 (ps i))) /\ x_k z = length (ps i) /\ x_j z = length (ps i) /\
    seen (s_calls (x_ss z)) = ocalls o ca ck 0 (ps i).
Proof.
  intros I Hi Hd Hd'. pose proof (some_valid _ _ _ _ _ i d I Hd Hd') as V.
  destruct (v_pair _ _ _ _ _ I i Hi _ (fun k => nth k (chks i) true) V (fits_nth _ _) (fits_nth _ _)) as (m & t & z & R).
  exists m, t, z. cbn zeta. split; [exact V|]. split; [apply fits_nth|]. split; [apply fits_nth|]. exact R.
Qed.

Lemma checked_one l t : checked (l :: t) = checked [l] ++ checked t.
Proof. unfold checked. cbn [flat_map]. rewrite app_nil_r. reflexivity. Qed.

(** What is about to be checked is the counter the client was given for that message. *)
Lemma inv_label x adds chks H rem i x' : inv x adds chks H rem -> tm x (TServe i) = Some x' ->
  ODuoRun.good key q0 (next_lab (c_prog (conn_at x i))) /\ (1 <= rem i)%nat /\
  forall c, next_lab (c_prog (conn_at x i)) = LCheck q0 c -> nth_error (adds i) (length (chks i)) = Some c.
Proof.
  intros I Hm. assert (Hi : (i < T)%nat).
  { unfold team_move in Hm. destruct (Nat.ltb_spec i T); [assumption|discriminate]. }
  assert (Go : forall ck k j, exists y, go_os i ck (yi x k j i) = Some y).
  { intros ck k j. destruct (go_os i ck (yi x k j i)) as [y|] eqn:Ey; [eauto|]. apply (stuck_serve x i ck k j Hi) in Ey. congruence. }
  assert (One : forall d, d <> 0 -> d < 2 ^ 64 ->
    ODuoRun.good key q0 (next_lab (c_prog (conn_at x i))) /\ (1 <= rem i)%nat /\
    forall c, next_lab (c_prog (conn_at x i)) = LCheck q0 c -> some_ca (adds i) d (length (chks i)) = c).
  { intros d Hd Hd'. destruct (inv_some _ _ _ _ _ i d I Hi Hd Hd') as (m & t & z & V & F1 & F2 & P & En & Hm' & G & Ck & _).
    destruct (Go (fun k => nth k (chks i) true) (length (adds i)) (length (chks i))) as [y Ey].
    destruct (one_r _ _ _ _ _ (odiamond C (CE i) (E i) A _ _) _ _ _ _ P En y Ey) as (m1 & t1 & -> & -> & _).
    change (olab A (yi x (length (adds i)) (length (chks i)) i)) with (next_lab (c_prog (conn_at x i))) in *.
    inversion G; subst. split; [assumption|]. split; [lia|]. intros c Hc. rewrite Hc in Ck.
    rewrite checked_one in Ck. cbn [checked flat_map app] in Ck.
    destruct (length (ps i) - length (chks i))%nat; cbn [seq map] in Ck; [discriminate|]. congruence. }
  destruct (One 1 ltac:(lia) ltac:(lia)) as (G & Hr1 & O1). destruct (One 2 ltac:(lia) ltac:(lia)) as (_ & _ & O2).
  split; [exact G|]. split; [exact Hr1|]. intros c Hc. specialize (O1 c Hc). specialize (O2 c Hc). unfold some_ca in *.
  destruct (nth_error (adds i) (length (chks i))) as [a|] eqn:Ea.
  - rewrite (nth_error_nth _ _ 1 Ea) in O1. congruence.
  - apply nth_error_None in Ea. rewrite nth_overflow in O1, O2 by exact Ea. congruence.
Qed.

Lemma two64_pow : two64 = 2 ^ 64. Proof. reflexivity. Qed.

Lemma nth_snoc {B} (l : list B) a k b : nth_error (l ++ [a]) k = Some b -> nth_error l k = Some b \/ (k = length l /\ b = a).
Proof.
  intros H. destruct (Nat.lt_ge_cases k (length l)) as [Hk|Hk].
  - rewrite nth_error_app1 in H by exact Hk. auto.
  - rewrite nth_error_app2 in H by exact Hk. destruct (k - length l)%nat as [|d] eqn:Ed; [|destruct d; discriminate].
    injection H as <-. right. split; [lia|reflexivity].
Qed.

Lemma inv_step x v x' adds chks H rem : inv x adds chks H rem -> team_spares1 key x v -> tm x v = Some x' ->
  exists adds' chks' H' rem', inv x' adds' chks' H' rem' /\ (sumT rem' T + team_moves [v] = sumT rem T)%nat /\
    (timely1 x v -> (forall i, Forall (eq true) (chks i)) -> forall i, Forall (eq true) (chks' i)).
Proof.
  intros I Hsp Hm. pose proof (inv_bound _ _ _ _ _ I) as Hb.
  assert (Oth : match v with TClient _ | TServe _ => False | _ => True end ->
    exists adds' chks' H' rem', inv x' adds' chks' H' rem' /\ (sumT rem' T + team_moves [v] = sumT rem T)%nat /\
      (timely1 x v -> (forall i, Forall (eq true) (chks i)) -> forall i, Forall (eq true) (chks' i))).
  { intros Hv. pose proof (memok_others _ _ _ _ (v_mem _ _ _ _ _ I) Hsp Hm) as M.
    assert (M' : memok x' (snd (checks new_window H)) /\ z_ctr x' = z_ctr x /\
                 forall i, (i < T)%nat -> conn_at x' i = conn_at x i /\ forall k j, yi x' k j i = yi x k j i)
      by (destruct v; try contradiction; exact M).
    destruct M' as (M1 & M2 & M3). exists adds, chks, H, rem.
    destruct I as [I1 I2 I3 I4 I5 I6 I7]. split; [|split; [destruct v; try contradiction; cbn; lia|auto]].
    constructor; try assumption; try (rewrite M2; assumption).
    intros i Hi. eapply pinv_eq; [apply M3, Hi|apply I7, Hi]. }
  destruct v as [i|i| | |]; try (apply Oth; constructor); clear Oth.
  - destruct (move_client x x' i Hm) as (Hi & Em & Ot & Cases).
    assert (Eo : forall j, (T <= j)%nat -> conn_at x' j = conn_at x j) by (intros j Hj; apply Ot; lia).
    destruct Cases as [(Ez & Ex & Go)|(Ez & Go)].
    + (* the next counter *)
      destruct (inv_some _ _ _ _ _ i 1 I Hi ltac:(lia) ltac:(lia)) as (m & t & z & V & F1 & F2 & P & En & Hm' & _ & _ & _ & Xk & _).
      destruct (Ex (some_ca (adds i) 1) (length (adds i)) (length (chks i))) as (y & Ey & Hy).
      destruct (one_l _ _ _ _ _ (odiamond C (CE i) (E i) A _ _) _ _ _ _ P En y Ey) as (m1 & -> & P1).
      destruct (opath_mono _ _ _ _ _ _ _ _ _ _ P1) as (Hk & _).
      assert (HL : (S (length (adds i)) <= length (ps i))%nat) by congruence.
      set (adds' := at_i adds i (adds i ++ [z_ctr x'])).
      assert (La : forall j, (j < T)%nat -> (length (adds' j) <= length (ps j))%nat).
      { intros j Hj. unfold adds'. destruct (Nat.eq_dec j i) as [->|Hne]; [rewrite at_same, app_length; cbn; lia|].
        rewrite at_other by exact Hne. apply (v_len _ _ _ _ _ I j Hj). }
      pose proof (sumT_at (fun j => length (adds j)) (fun j => length (adds' j)) T i Hi) as Hs.
      cbn beta in Hs. specialize (Hs ltac:(intros k Hk'; unfold adds'; rewrite at_other by exact Hk'; reflexivity)).
      assert (Ha1 : adds' i = adds i ++ [z_ctr x']) by apply at_same. rewrite Ha1, app_length in Hs. cbn [length] in Hs.
      assert (Ez' : z_ctr x' = z_ctr x + 1).
      { rewrite Ez. apply N.mod_small. rewrite two64_pow.
        pose proof (sumT_le _ _ T La) as B. rewrite <- total_sum in B. pose proof (v_ctr _ _ _ _ _ I). lia. }
      exists adds', chks, H, (at_i rem i (pred (rem i))). split; [|split].
      * constructor.
        -- rewrite Ez', (v_ctr _ _ _ _ _ I). lia.
        -- intros j k a Ha. unfold adds' in Ha. destruct (Nat.eq_dec j i) as [->|Hne].
           ++ rewrite at_same in Ha. destruct (nth_snoc _ _ _ _ Ha) as [Hb'|[_ ->]].
              ** pose proof (v_range _ _ _ _ _ I _ _ _ Hb'). lia.
              ** pose proof (v_ctr _ _ _ _ _ I). lia.
           ++ rewrite at_other in Ha by exact Hne. pose proof (v_range _ _ _ _ _ I _ _ _ Ha). lia.
        -- assert (D : forall j k a, nth_error (adds' j) k = Some a ->
             (nth_error (adds j) k = Some a /\ a <= z_ctr x) \/ (j = i /\ k = length (adds i) /\ a = z_ctr x')).
           { intros j k a Ha. unfold adds' in Ha. destruct (Nat.eq_dec j i) as [->|Hne].
             - rewrite at_same in Ha. destruct (nth_snoc _ _ _ _ Ha) as [Hb'|[-> ->]]; [|right; auto].
               left. pose proof (v_range _ _ _ _ _ I _ _ _ Hb'). split; [exact Hb'|lia].
             - rewrite at_other in Ha by exact Hne. left. pose proof (v_range _ _ _ _ _ I _ _ _ Ha). split; [exact Ha|lia]. }
           intros j k j' k' a Ha Ha'. destruct (D _ _ _ Ha) as [[D1 D2]|(-> & -> & D3)], (D _ _ _ Ha') as [[E1 E2]|(-> & -> & E3)].
           ++ eapply (v_inj _ _ _ _ _ I); eassumption.
           ++ lia.
           ++ lia.
           ++ auto.
        -- intros c Hc. destruct (v_seen _ _ _ _ _ I c Hc) as [Hl|(j & k & Hk' & Hn)]; [left; exact Hl|right].
           exists j, k. split; [exact Hk'|]. unfold adds'. destruct (Nat.eq_dec j i) as [->|Hne].
           ++ rewrite at_same, nth_error_app1; [exact Hn|]. apply nth_error_Some. congruence.
           ++ rewrite at_other by exact Hne. exact Hn.
        -- eapply memok_keep; [exact (v_mem _ _ _ _ _ I)|exact Em|exact Eo].
        -- exact La.
        -- intros j Hj. destruct (Nat.eq_dec j i) as [->|Hne].
           ++ rewrite Ha1, at_same. intros ca ck V' G1 G2. apply fits_snoc in G1. destruct G1 as [G1 G1'].
              destruct (v_pair _ _ _ _ _ I i Hi ca ck V' G1 G2) as (m2 & t2 & z2 & P2 & En2 & Hm2 & R2).
              destruct (one_l _ _ _ _ _ (odiamond C (CE i) (E i) A _ _) _ _ _ _ P2 En2 _ (Go ca _ _ G1')) as (m3 & -> & P3).
              exists m3, t2, z2. rewrite app_length. cbn [length]. rewrite Nat.add_1_r. split; [exact P3|]. split; [exact En2|]. split; [lia|exact R2].
           ++ unfold adds'. rewrite !at_other by exact Hne. eapply pinv_eq; [apply Ot, Hne|]. apply (v_pair _ _ _ _ _ I j Hj).
      * cbn [team_moves filter length]. pose proof (sumT_at rem (at_i rem i (pred (rem i))) T i Hi (fun k Hk' => at_other _ _ _ _ Hk')) as Hr'.
        rewrite at_same in Hr'. unfold team_moves. cbn [filter length]. lia.
      * auto.
    + destruct (inv_some _ _ _ _ _ i 1 I Hi ltac:(lia) ltac:(lia)) as (m & t & z & V & F1 & F2 & P & En & Hm' & _).
      destruct (one_l _ _ _ _ _ (odiamond C (CE i) (E i) A _ _) _ _ _ _ P En _ (Go _ _ _)) as (m1 & -> & _).
      exists adds, chks, H, (at_i rem i (pred (rem i))). split; [|split].
      * destruct I as [I1 I2 I3 I4 I5 I6 I7]. constructor; try assumption; try (rewrite Ez; assumption).
        -- eapply memok_keep; [exact I5|exact Em|exact Eo].
        -- intros j Hj. destruct (Nat.eq_dec j i) as [->|Hne].
           ++ rewrite at_same. intros ca ck V' G1 G2.
              destruct (I7 i Hi ca ck V' G1 G2) as (m2 & t2 & z2 & P2 & En2 & Hm2 & R2).
              destruct (one_l _ _ _ _ _ (odiamond C (CE i) (E i) A _ _) _ _ _ _ P2 En2 _ (Go ca _ _)) as (m3 & -> & P3).
              exists m3, t2, z2. split; [exact P3|]. split; [exact En2|]. split; [lia|exact R2].
           ++ rewrite !at_other by exact Hne. eapply pinv_eq; [apply Ot, Hne|]. apply (I7 j Hj).
      * pose proof (sumT_at rem (at_i rem i (pred (rem i))) T i Hi (fun k Hk' => at_other _ _ _ _ Hk')) as Hr'.
        rewrite at_same in Hr'. unfold team_moves. cbn [filter length]. lia.
      * auto.
  - destruct (inv_label _ _ _ _ _ _ _ I Hm) as (G & Hrem & Hc).
    destruct (v_mem _ _ _ _ _ I) as (M1 & M2 & _).
    destruct (move_serve x x' i Hm M1 ltac:(rewrite M2; reflexivity) G) as (Hi & Ez & Ot & Cases).
    assert (Eo : forall j, (T <= j)%nat -> conn_at x' j = conn_at x j) by (intros j Hj; apply Ot; lia).
    assert (Sr : (sumT (at_i rem i (pred (rem i))) T + team_moves [TServe i] = sumT rem T)%nat).
    { pose proof (sumT_at rem (at_i rem i (pred (rem i))) T i Hi (fun k Hk' => at_other _ _ _ _ Hk')) as Hr'.
      rewrite at_same in Hr'. unfold team_moves. cbn [filter length]. lia. }
    destruct Cases as [(c & Hl & Hnc & Cs)|(Hnc & Hck & Em & Go)].
    + rewrite M2 in Cs. cbn [ses_win] in Cs. specialize (Hc c Hl).
      set (r := check_and_update (snd (checks new_window H)) c) in *. cbn zeta in Cs. destruct Cs as [Em Go].
      exists adds, (at_i chks i (chks i ++ [fst r])), (H ++ [c]), (at_i rem i (pred (rem i))).
      split; [|split; [exact Sr|]].
      * destruct I as [I1 I2 I3 I4 I5 I6 I7]. constructor; try assumption; try (rewrite Ez; assumption).
        -- intros d Hd. apply in_app_or in Hd. destruct Hd as [Hd|[<-|[]]].
           ++ destruct (I4 d Hd) as [Hle|(j & k & Hk & Hn)]; [left; exact Hle|right]. exists j, k. split; [|exact Hn].
              destruct (Nat.eq_dec j i) as [->|Hne]; [rewrite at_same, app_length; lia|rewrite at_other by exact Hne; exact Hk].
           ++ right. exists i, (length (chks i)). rewrite at_same, app_length. cbn. split; [lia|exact Hc].
        -- rewrite checks_snoc. cbn [snd]. eapply memok_check; [exact I5|exact Em|exact Eo].
        -- intros j Hj. destruct (Nat.eq_dec j i) as [->|Hne].
           ++ rewrite !at_same. intros ca ck V' G1 G2. apply fits_snoc in G2. destruct G2 as [G2 G2'].
              destruct (I7 i Hi ca ck V' G1 G2) as (m2 & t2 & z2 & P2 & En2 & Hm2 & Gd & Ck & R2).
              destruct (one_r _ _ _ _ _ (odiamond C (CE i) (E i) A _ _) _ _ _ _ P2 En2 _ (Go ck _ _ G2')) as (m3 & t3 & -> & -> & P3).
              change (olab A (yi x (length (adds i)) (length (chks i)) i)) with (next_lab (c_prog (conn_at x i))) in *.
              exists m3, t3, z2. rewrite app_length. cbn [length]. rewrite Nat.add_1_r. split; [exact P3|]. split; [exact En2|].
              split; [lia|]. split; [inversion Gd; assumption|]. split; [|exact R2].
              rewrite checked_one, Hl in Ck. cbn [checked flat_map app] in Ck.
              destruct (length (ps i) - length (chks i))%nat as [|q] eqn:Eq; cbn [seq map] in Ck; [discriminate|].
              replace (length (ps i) - S (length (chks i)))%nat with q by lia. injection Ck as _ Ck. exact Ck.
           ++ rewrite !at_other by exact Hne. eapply pinv_eq; [apply Ot, Hne|]. apply (I7 j Hj).
      * intros Ht Hall j. destruct (Nat.eq_dec j i) as [->|Hne]; [|rewrite at_other by exact Hne; apply Hall].
        rewrite at_same. apply Forall_app. split; [apply Hall|]. repeat constructor.
        cbn [timely1] in Ht. specialize (Ht c Hnc). pose proof (v_range _ _ _ _ _ I _ _ _ Hc) as Rc.
        assert (HB : Forall (fun d => d <= z_ctr x) H).
        { apply Forall_forall. intros d Hd. destruct (v_seen _ _ _ _ _ I d Hd) as [Hle|(j & k & _ & Hn)].
          - pose proof (v_ctr _ _ _ _ _ I). lia.
          - pose proof (v_range _ _ _ _ _ I _ _ _ Hn). lia. }
        symmetry. apply fresh_iff.
        -- eapply Forall_impl; [|exact HB]. intros d Hd. cbn in Hd. rewrite two64_pow. lia.
        -- rewrite two64_pow. lia.
        -- intros [Hz|[Hz|Hz]].
           ++ lia.
           ++ apply accepted_in in Hz. destruct (v_seen _ _ _ _ _ I c Hz) as [Hle|(j & k & Hk & Hn)]; [lia|].
              destruct (v_inj _ _ _ _ _ I _ _ _ _ _ Hc Hn) as [<- <-]. lia.
           ++ assert (Hh' : highest (accepted H (fst (checks new_window H))) <= z_ctr x).
              { apply highest_le. apply Forall_forall. intros d Hd. apply accepted_in in Hd. rewrite Forall_forall in HB. apply HB, Hd. }
              lia.
    + exists adds, chks, H, (at_i rem i (pred (rem i))). split; [|split; [exact Sr|auto]].
      destruct I as [I1 I2 I3 I4 I5 I6 I7]. constructor; try assumption; try (rewrite Ez; assumption).
      * eapply memok_keep; [exact I5|exact Em|exact Eo].
      * intros j Hj. destruct (Nat.eq_dec j i) as [->|Hne].
        -- rewrite at_same. intros ca ck V' G1 G2.
           destruct (I7 i Hi ca ck V' G1 G2) as (m2 & t2 & z2 & P2 & En2 & Hm2 & Gd & Ck & R2).
           destruct (one_r _ _ _ _ _ (odiamond C (CE i) (E i) A _ _) _ _ _ _ P2 En2 _ (Go ck _ _)) as (m3 & t3 & -> & -> & P3).
           change (olab A (yi x (length (adds i)) (length (chks i)) i)) with (next_lab (c_prog (conn_at x i))) in *.
           exists m3, t3, z2. split; [exact P3|]. split; [exact En2|].
           split; [lia|]. split; [inversion Gd; assumption|]. split; [|exact R2].
           rewrite checked_one, Hck in Ck. exact Ck.
        -- rewrite !at_other by exact Hne. eapply pinv_eq; [apply Ot, Hne|]. apply (I7 j Hj).
Qed.

(** ** Whole runs *)
Definition start : team A := teaming C tcp inputs m0 T c0 (fun i => exchange C o ses n (ps i)).
Definition rem0 (i : nat) : nat := (41 * length (ps i) + 1)%nat.

Lemma inv_start : inv start (fun _ => []) (fun _ => []) hist rem0.
Proof.
  constructor; cbn [start teaming z_ctr].
  - rewrite (sumT_ext _ (fun _ => 0%nat)) by reflexivity.
    assert (Z : forall t, sumT (fun _ => 0%nat) t = 0%nat) by (induction t as [|t IH]; cbn; lia). rewrite Z. cbn. lia.
  - intros i [|j] a Ha; discriminate Ha.
  - intros i [|j] i' j' a Ha; discriminate Ha.
  - intros c Hc. left. rewrite Forall_forall in Hhist. apply Hhist, Hc.
  - unfold memok. cbn [start teaming z_srv starting t_mem t_conn]. split; [exact Hmap|]. split; [exact Hheap|].
    destruct Hsane as [Hlt Hinj].
    exists (fun a b => a = b /\ exists k, K k = true /\ m_map m0 k = Some a), (fun a => exists k, K k = false /\ m_map m0 k = Some a), m0.
    split.
    + constructor; cbn.
      * intros a b b' [-> _] [-> _]. reflexivity.
      * intros a a' b [-> _] [-> _]. reflexivity.
      * intros a b [<- (k & _ & Hk)]. apply Hlt in Hk. lia.
      * intros a b [<- _]. reflexivity.
      * intros k Hk. destruct (m_map m0 k) eqn:Em; [|exact I]. split; [reflexivity|]. exists k. auto.
      * intros a (k & _ & Hk). eauto.
      * intros a b (k & Hk & Ha) [_ (k' & Hk' & Ha')]. rewrite (Hinj _ _ _ Ha Ha') in Hk. congruence.
      * intros k a Hk Ha. exists k. auto.
    + intros j Hj. exists (if tcp j then conn_body C else one_request C). cbn [c_prog fresh_conn].
      destruct (tcp j); [apply ev_body|apply ev_request]; apply any_own.
  - intros i Hi. cbn. lia.
  - intros i Hi ca ck V _ _. unfold yi. cbn [start teaming z_cl z_cs z_srv starting t_conn fresh_conn c_prog length].
    rewrite (Htcp i Hi). destruct (Nat.ltb_spec i T) as [_|]; [|lia].
    destruct (otalk C (CE i) (E i) o chost q0 ses ca ck L (WC i Hi) (WS i Hi) (Q i Hi) (Hh i Hi) Hid V n f (ps i)
      (c_set_ctr (z_cs start i) 0) (join m0 (fresh_conn C true []))) as (m & t & z & P & En & Hm & G & Ck & X1 & X2 & X3 & X4).
    + constructor; try reflexivity; [exact Hmap|]. cbn. rewrite Hheap. reflexivity.
    + apply Hp, Hi.
    + intros k p Hin. apply (Hf i); assumption.
    + apply Hr, Hi.
    + exists m, t, z. split; [exact P|]. split; [exact En|]. split; [exact Hm|]. split; [exact G|].
      rewrite Nat.sub_0_r. split; [exact Ck|]. auto.
Qed.

Lemma soon x adds chks H rem v x' : inv x adds chks H rem -> tm x v = Some x' -> (total ps T <= 64)%nat -> timely1 x v.
Proof.
  intros I Hm Ht. destruct v; try exact Logic.I. intros c Hc.
  destruct (inv_label _ _ _ _ _ _ _ I Hm) as (G & _ & Hl).
  assert (Hlc : next_lab (c_prog (conn_at x i)) = LCheck q0 c).
  { destruct (c_prog (conn_at x i)) as [| |R e g]; try discriminate Hc. destruct e; try discriminate Hc.
    cbn in Hc, G |- *. congruence. }
  pose proof (v_range _ _ _ _ _ I _ _ _ (Hl c Hlc)). rewrite (v_ctr _ _ _ _ _ I).
  pose proof (sumT_le (fun i => length (adds i)) (fun i => length (ps i)) T (v_len _ _ _ _ _ I)) as B. rewrite <- total_sum in B. lia.
Qed.

Lemma moves_cons v l : team_moves (v :: l) = (team_moves [v] + team_moves l)%nat.
Proof. unfold team_moves. cbn [filter]. destruct v; reflexivity. Qed.

Lemma inv_run sched : forall x x' adds chks H rem, inv x adds chks H rem ->
  team_spares C CE E tcp T key sched x -> team_run C CE E tcp T sched x = Some x' ->
  exists adds' chks' H' rem', inv x' adds' chks' H' rem' /\ (sumT rem' T + team_moves sched = sumT rem T)%nat /\
    (timely C CE E tcp T sched x \/ (total ps T <= 64)%nat -> (forall i, Forall (eq true) (chks i)) -> forall i, Forall (eq true) (chks' i)).
Proof.
  induction sched as [|v l IH]; intros x x' adds chks H rem I Hs Hrun; cbn [team_run] in Hrun.
  - injection Hrun as <-. exists adds, chks, H, rem. split; [exact I|]. split; [cbn; lia|auto].
  - destruct (team_move C CE E tcp T x v) as [y|] eqn:Em; [|discriminate]. cbn [team_spares] in Hs. rewrite Em in Hs. destruct Hs as [Hs1 Hs2].
    destruct (inv_step _ _ _ _ _ _ _ I Hs1 Em) as (a1 & k1 & H1 & r1 & I1 & S1 & T1).
    destruct (IH _ _ _ _ _ _ I1 Hs2 Hrun) as (a2 & k2 & H2 & r2 & I2 & S2 & T2).
    exists a2, k2, H2, r2. split; [exact I2|]. split; [rewrite moves_cons; lia|].
    intros Ht Hall. assert (T1' : timely1 x v).
    { destruct Ht as [Ht|Ht]; [cbn [timely] in Ht; apply Ht|eapply soon; eassumption]. }
    apply T2; [|apply T1; assumption]. destruct Ht as [Ht|Ht]; [left|right; exact Ht].
    cbn [timely] in Ht. rewrite Em in Ht. apply Ht.
Qed.

Lemma marked_snd ck : forall l k, map snd (marked (combine (seq k (length l)) l) (oks ck k l)) = marked l (oks ck k l).
Proof.
  induction l as [|p l IH]; intros k; [reflexivity|]. cbn. destruct (ck k); cbn; rewrite IH; reflexivity.
Qed.
Lemma oks_length ck l : forall k, length (oks ck k l) = length l.
Proof. intros k. unfold oks. rewrite map_length, seq_length. reflexivity. Qed.

Lemma path_stuck {S0 Lab} l r (lab : S0 -> Lab) x m t z : path S0 Lab l r lab x m t z -> l x = None -> r x = None -> z = x.
Proof. intros P H1 H2. destruct P; congruence. Qed.

Lemma inv_end x adds chks H rem i : inv x adds chks H rem -> (i < T)%nat ->
  let ok := oks (fun k => nth k (chks i) true) 0 (ps i) in
  exists later, marked (ps i) ok = given (conn_at x i) ++ later /\
    (forall a, z_cl x i = CRet a -> a = team_result o f (ps i) ok) /\ z_cl x i <> CPanic /\
    (team_rests C CE E tcp T x -> z_cl x i = CRet (team_result o f (ps i) ok) /\ later = []).
Proof.
  intros I Hi ok. destruct (inv_some _ _ _ _ _ i 1 I Hi ltac:(lia) ltac:(lia)) as (m & t & z & V & F1 & F2 & P & En & _ & _ & _ & Xc & _ & _ & Xs).
  destruct (opath_mono _ _ _ _ _ _ _ _ _ _ P) as (_ & _ & l & El). destruct (opath_done _ _ _ _ _ _ _ _ _ _ P) as (D1 & D2).
  cbn [yi odu_at x_cl x_ss join s_calls] in *.
  assert (Eg : marked (ps i) ok = given (conn_at x i) ++ map snd (seen l)).
  { unfold ok. rewrite <- marked_snd. unfold given. rewrite <- map_app. unfold seen in *. rewrite <- map_app, <- El, Xs.
    unfold ocalls. rewrite map_map. reflexivity. }
  exists (map snd (seen l)). split; [exact Eg|]. split.
  { intros a Ha. specialize (D1 a Ha). fold ok in Xc. congruence. }
  split; [intros Hc; specialize (D2 Hc); congruence|].
  intros Hr0. destruct (Hr0 i Hi) as [R1 R2].
  assert (Ez : z = yi x (length (adds i)) (length (chks i)) i).
  { eapply path_stuck; [exact P| |].
    - apply stuck_client; assumption.
    - apply stuck_serve; assumption. }
  subst z. split; [exact Xc|]. cbn [yi odu_at x_ss join s_calls] in El.
  destruct l; [reflexivity|]. apply (f_equal (@length _)) in El. rewrite app_length in El. cbn in El. lia.
Qed.

Theorem team_any : exists Nm, forall sched x,
  team_spares C CE E tcp T key sched start -> team_run C CE E tcp T sched start = Some x ->
  (team_moves sched <= Nm)%nat /\
  forall i, (i < T)%nat -> exists ok later, length ok = length (ps i) /\
    marked (ps i) ok = given (conn_at x i) ++ later /\
    (forall a, z_cl x i = CRet a -> a = team_result o f (ps i) ok) /\ z_cl x i <> CPanic /\
    (team_rests C CE E tcp T x -> z_cl x i = CRet (team_result o f (ps i) ok) /\ later = []).
Proof.
  exists (sumT rem0 T). intros sched x Hs Hrun.
  destruct (inv_run _ _ _ _ _ _ _ inv_start Hs Hrun) as (adds & chks & H & rem & I & Hm & _).
  split; [lia|]. intros i Hi. destruct (inv_end _ _ _ _ _ i I Hi) as (later & Hl). eexists _, later. split; [apply oks_length|exact Hl].
Qed.

Lemma oks_true ck : (forall k, ck k = true) -> forall l k, oks ck k l = repeat true (length l).
Proof.
  intros H. unfold oks. induction l as [|p l IH]; intros k; [reflexivity|]. cbn [length seq map repeat]. rewrite H, IH. reflexivity.
Qed.
Lemma marked_true {B} (l : list B) : marked l (repeat true (length l)) = l.
Proof. induction l as [|p l IH]; cbn; [reflexivity|]. rewrite IH. reflexivity. Qed.
Lemma outcomes_true l : outcomes f l (repeat true (length l)) = map (fun p => RdOk (f p) true) l.
Proof. induction l as [|p l IH]; cbn; [reflexivity|]. rewrite IH. reflexivity. Qed.

Theorem team_all : exists Nm, forall sched x,
  team_spares C CE E tcp T key sched start -> team_run C CE E tcp T sched start = Some x ->
  timely C CE E tcp T sched start \/ (total ps T <= 64)%nat ->
  (team_moves sched <= Nm)%nat /\
  forall i, (i < T)%nat -> exists later,
    ps i = given (conn_at x i) ++ later /\
    (forall a, z_cl x i = CRet a -> a = expected o f (ps i)) /\ z_cl x i <> CPanic /\
    (team_rests C CE E tcp T x -> z_cl x i = CRet (expected o f (ps i)) /\ later = []).
Proof.
  exists (sumT rem0 T). intros sched x Hs Hrun Ht.
  destruct (inv_run _ _ _ _ _ _ _ inv_start Hs Hrun) as (adds & chks & H & rem & I & Hm & Hall).
  specialize (Hall Ht (fun _ => Forall_nil _)).
  split; [lia|]. intros i Hi. destruct (inv_end _ _ _ _ _ i I Hi) as (later & Hl). exists later.
  rewrite oks_true in Hl.
  - unfold team_result in Hl. rewrite outcomes_true, marked_true in Hl. exact Hl.
  - intros k. destruct (nth_in_or_default k (chks i) true) as [Hin|E0]; [|exact E0].
    specialize (Hall i). rewrite Forall_forall in Hall. symmetry. apply Hall, Hin.
Qed.
End Team.

Theorem team_any_order : forall C CE E tcp T inputs m chost ses hist c0 q o n f ps, CryptoLaws C ->
  (forall i, (i < T)%nat -> c_works (CE i) /\ writes_all (E i) /\ (forall k, e_quit (E i) k = false) /\
     e_host (E i) = Some chost /\ tcp i = true) ->
  length (cs_id ses) = 16%nat -> sane m -> m_map m (session_key C chost (cs_id ses)) = Some q ->
  m_heap m q = {| ses_secret := cs_secret ses; ses_win := snd (checks new_window hist) |} ->
  Forall (fun c => c <= c0) hist -> c0 + N.of_nat (total ps T) < 2 ^ 64 ->
  (forall i, (i < T)%nat -> Forall (fun p => lenN p + 16 <= 2 ^ 30) (ps i)) ->
  (forall i k p, (i < T)%nat -> In p (ps i) -> e_handler (E i) k (co_reply o) p = HOk (f p)) ->
  (forall i, (i < T)%nat -> co_reply o = true ->
     Forall (fun p => f p <> [] /\ lenN (f p) + 16 <= 2 ^ 30 /\ lenN (f p) <= n) (ps i)) ->
  let key := session_key C chost (cs_id ses) in
  let start := teaming C tcp inputs m T c0 (fun i => exchange C o ses n (ps i)) in
  exists N, forall sched x,
    team_spares C CE E tcp T key sched start -> team_run C CE E tcp T sched start = Some x ->
    (team_moves sched <= N)%nat /\
    forall i, (i < T)%nat -> exists ok later, length ok = length (ps i) /\
      marked (ps i) ok = given (t_conn (z_srv x) i) ++ later /\
      (forall a, z_cl x i = CRet a -> a = team_result o f (ps i) ok) /\ z_cl x i <> CPanic /\
      (team_rests C CE E tcp T x -> z_cl x i = CRet (team_result o f (ps i) ok) /\ later = []).
Proof.
  intros C CE E tcp T inputs m chost ses hist c0 q o n f ps L H Hid Hs Hm Hh Hhist Hlen Hp Hf Hr.
  destruct (team_any C CE E tcp T inputs m chost ses hist c0 q o n f ps L) as [Nm HN]; try assumption; try (intros i Hi; apply (H i Hi)).
  exists Nm. exact HN.
Qed.

Theorem team_timely : forall C CE E tcp T inputs m chost ses hist c0 q o n f ps, CryptoLaws C ->
  (forall i, (i < T)%nat -> c_works (CE i) /\ writes_all (E i) /\ (forall k, e_quit (E i) k = false) /\
     e_host (E i) = Some chost /\ tcp i = true) ->
  length (cs_id ses) = 16%nat -> sane m -> m_map m (session_key C chost (cs_id ses)) = Some q ->
  m_heap m q = {| ses_secret := cs_secret ses; ses_win := snd (checks new_window hist) |} ->
  Forall (fun c => c <= c0) hist -> c0 + N.of_nat (total ps T) < 2 ^ 64 ->
  (forall i, (i < T)%nat -> Forall (fun p => lenN p + 16 <= 2 ^ 30) (ps i)) ->
  (forall i k p, (i < T)%nat -> In p (ps i) -> e_handler (E i) k (co_reply o) p = HOk (f p)) ->
  (forall i, (i < T)%nat -> co_reply o = true ->
     Forall (fun p => f p <> [] /\ lenN (f p) + 16 <= 2 ^ 30 /\ lenN (f p) <= n) (ps i)) ->
  let key := session_key C chost (cs_id ses) in
  let start := teaming C tcp inputs m T c0 (fun i => exchange C o ses n (ps i)) in
  exists N, forall sched x,
    team_spares C CE E tcp T key sched start -> team_run C CE E tcp T sched start = Some x ->
    timely C CE E tcp T sched start ->
    (team_moves sched <= N)%nat /\
    forall i, (i < T)%nat -> exists later,
      ps i = given (t_conn (z_srv x) i) ++ later /\
      (forall a, z_cl x i = CRet a -> a = expected o f (ps i)) /\ z_cl x i <> CPanic /\
      (team_rests C CE E tcp T x -> z_cl x i = CRet (expected o f (ps i)) /\ later = []).
Proof.
  intros C CE E tcp T inputs m chost ses hist c0 q o n f ps L H Hid Hs Hm Hh Hhist Hlen Hp Hf Hr.
  destruct (team_all C CE E tcp T inputs m chost ses hist c0 q o n f ps L) as [Nm HN]; try assumption; try (intros i Hi; apply (H i Hi)).
  exists Nm. intros sched x S1 S2 S3. apply (HN sched x S1 S2). left. exact S3.
Qed.

Theorem team_few : forall C CE E tcp T inputs m chost ses hist c0 q o n f ps, CryptoLaws C ->
  (forall i, (i < T)%nat -> c_works (CE i) /\ writes_all (E i) /\ (forall k, e_quit (E i) k = false) /\
     e_host (E i) = Some chost /\ tcp i = true) ->
  length (cs_id ses) = 16%nat -> sane m -> m_map m (session_key C chost (cs_id ses)) = Some q ->
  m_heap m q = {| ses_secret := cs_secret ses; ses_win := snd (checks new_window hist) |} ->
  Forall (fun c => c <= c0) hist -> c0 + N.of_nat (total ps T) < 2 ^ 64 ->
  (forall i, (i < T)%nat -> Forall (fun p => lenN p + 16 <= 2 ^ 30) (ps i)) ->
  (forall i k p, (i < T)%nat -> In p (ps i) -> e_handler (E i) k (co_reply o) p = HOk (f p)) ->
  (forall i, (i < T)%nat -> co_reply o = true ->
     Forall (fun p => f p <> [] /\ lenN (f p) + 16 <= 2 ^ 30 /\ lenN (f p) <= n) (ps i)) ->
  (total ps T <= 64)%nat ->
  let key := session_key C chost (cs_id ses) in
  let start := teaming C tcp inputs m T c0 (fun i => exchange C o ses n (ps i)) in
  exists N, forall sched x,
    team_spares C CE E tcp T key sched start -> team_run C CE E tcp T sched start = Some x ->
    (team_moves sched <= N)%nat /\
    forall i, (i < T)%nat -> exists later,
      ps i = given (t_conn (z_srv x) i) ++ later /\
      (forall a, z_cl x i = CRet a -> a = expected o f (ps i)) /\ z_cl x i <> CPanic /\
      (team_rests C CE E tcp T x -> z_cl x i = CRet (expected o f (ps i)) /\ later = []).
Proof.
  intros C CE E tcp T inputs m chost ses hist c0 q o n f ps L H Hid Hs Hm Hh Hhist Hlen Hp Hf Hr Hfew.
  destruct (team_all C CE E tcp T inputs m chost ses hist c0 q o n f ps L) as [Nm HN]; try assumption; try (intros i Hi; apply (H i Hi)).
  exists Nm. intros sched x S1 S2. apply (HN sched x S1 S2). right. exact Hfew.
Qed.
