(** Runs of the chat example. *)
From Coq Require Import Strings.String Permutation.
From Verif Require Import Bytes BytesProofs Kdf Registry SpecRegistry RegistryExec ChatUser SpecChat ChatUserProofs ChatUrl.

Ltac inlog := repeat (first [left; reflexivity | right]).
Ltac notlog := let H := fresh in intros H; repeat (destruct H as [H|H]; [discriminate H|]); destruct H.

Definition final (l : list cmd) : rst := match runs rst0 l with Some s => s | None => rst0 end.
(** Only the outcome and the log are computed, never the tasks as a function. *)
Definition ok (s : option rst) : bool := match s with Some _ => true | None => false end.
Lemma final_steps l : ok (runs rst0 l) = true -> rsteps rst0 (final l).
Proof.
  unfold final. destruct (runs rst0 l) as [s|] eqn:E; [|discriminate].
  intros _. eapply runs_steps, E.
Qed.

Definition s_both := final sched_both.
Definition s_same := final sched_same.
Definition s_seq := final sched_seq.
Definition s_stale := final sched_stale.
Lemma both_steps : rsteps rst0 s_both. Proof. apply final_steps. vm_compute. reflexivity. Qed.
Lemma same_steps : rsteps rst0 s_same. Proof. apply final_steps. vm_compute. reflexivity. Qed.
Lemma seq_steps : rsteps rst0 s_seq. Proof. apply final_steps. vm_compute. reflexivity. Qed.
Lemma stale_steps : rsteps rst0 s_stale. Proof. apply final_steps. vm_compute. reflexivity. Qed.

Definition log_both := Eval vm_compute in r_log s_both.
Definition log_same := Eval vm_compute in r_log s_same.
Definition log_seq := Eval vm_compute in r_log s_seq.
Definition log_stale := Eval vm_compute in r_log s_stale.
Lemma log_both_eq : r_log s_both = log_both. Proof. vm_compute. reflexivity. Qed.
Lemma log_same_eq : r_log s_same = log_same. Proof. vm_compute. reflexivity. Qed.
Lemma log_seq_eq : r_log s_seq = log_seq. Proof. vm_compute. reflexivity. Qed.
Lemma log_stale_eq : r_log s_stale = log_stale. Proof. vm_compute. reflexivity. Qed.

Ltac only_tac := let H := fresh in intros ? ? H;
  repeat (destruct H as [H|H]; [try discriminate H; injection H as _ <-; first [intros _; reflexivity|let X := fresh in intros X; discriminate X]|]); destruct H.

(** Two users of one name. *)
Lemma two_of_a_name : exists s i j u v, rsteps rst0 s /\ i <> j /\ u <> v /\ u_name u = u_name v /\
  In (i, RStored u) (r_log s) /\ In (i, RResp 201) (r_log s) /\
  In (j, RStored v) (r_log s) /\ In (j, RResp 201) (r_log s) /\ kept (r_log s) (u_name u).
Proof.
  exists s_same, 0%nat, 1%nat, ex_ana, ex_ana2. split; [apply same_steps|]. rewrite log_same_eq.
  split; [discriminate|]. split; [discriminate|]. split; [reflexivity|].
  split; [inlog|]. split; [inlog|]. split; [inlog|]. split; [inlog|]. intros i. notlog.
Qed.

Lemma refused : exists s i l1 l0, rsteps rst0 s /\
  r_log s = l1 ++ (i, RBegin (QPost ex_ana2)) :: l0 /\ on_register l0 (u_name ex_ana2) = true /\
  In (i, RResp 409) l1.
Proof.
  set (l := [Begin 0 (QPost ex_ana); Go 0; Go 0; Go 0; Visit 0 ex_ana; Go 0; Begin 1 (QPost ex_ana2); Visit 1 ex_ana]).
  exists (final l), 1%nat, [(1%nat, RResp 409)].
  eexists. split; [apply final_steps; vm_compute; reflexivity|]. split; [vm_compute; reflexivity|].
  split; [vm_compute; reflexivity|]. left. reflexivity.
Qed.

(** Both are introduced, and more than once. *)
Lemma meets : rsteps rst0 s_both /\
  In (0%nat, RStored ex_ana) (r_log s_both) /\ In (1%nat, RStored ex_bob) (r_log s_both) /\
  u_name ex_ana <> u_name ex_bob /\
  kept (r_log s_both) (u_name ex_ana) /\ kept (r_log s_both) (u_name ex_bob) /\
  only (r_log s_both) ex_ana /\ only (r_log s_both) ex_bob /\
  In (0%nat, RResp 201) (r_log s_both) /\ In (1%nat, RResp 201) (r_log s_both).
Proof.
  split; [apply both_steps|]. rewrite log_both_eq. split; [inlog|]. split; [inlog|]. split; [discriminate|].
  split; [intros i; notlog|]. split; [intros i; notlog|]. split; [only_tac|]. split; [only_tac|].
  split; inlog.
Qed.

Lemma twice : rsteps rst0 s_both /\ In (0%nat, RTold ex_ana true ex_bob) (r_log s_both) /\
  In (1%nat, RTold ex_ana true ex_bob) (r_log s_both).
Proof. split; [apply both_steps|]. rewrite log_both_eq. split; inlog. Qed.

Lemma parts : exists l1 l0, r_log s_seq = l1 ++ (3%nat, RDeleted (str "bob")) :: l0 /\
  In (0%nat, RStored ex_ana) l0 /\ kept (r_log s_seq) (u_name ex_ana) /\ only (r_log s_seq) ex_ana /\
  In (3%nat, RResp 204) (r_log s_seq) /\ In (3%nat, RTold ex_ana false ex_bob) (r_log s_seq).
Proof.
  rewrite log_seq_eq. exists [(3%nat, RResp 204); (3%nat, RTold ex_ana false ex_bob)]. eexists.
  split; [reflexivity|]. split; [inlog|]. split; [intros i; notlog|]. split; [only_tac|]. split; inlog.
Qed.

Lemma lists_two : In (2%nat, RList [ex_bob; ex_ana]) (r_log s_seq) /\
  exists l1 l0, r_log s_seq = l1 ++ (2%nat, RBegin QGet) :: l0 /\ In (0%nat, RStored ex_ana) l0.
Proof.
  rewrite log_seq_eq. split; [inlog|].
  exists [(3%nat, RResp 204); (3%nat, RTold ex_ana false ex_bob); (3%nat, RDeleted (str "bob"));
          (3%nat, RBegin (QDelete (str "bob"))); (2%nat, RList [ex_bob; ex_ana])].
  eexists. split; [reflexivity|]. inlog.
Qed.

Lemma stale_quiet : quiet s_stale.
Proof.
  assert (T0 : r_task s_stale 0 = Some (Done 201)) by (vm_compute; reflexivity).
  assert (T1 : r_task s_stale 1 = Some (Done 201)) by (vm_compute; reflexivity).
  assert (T2 : r_task s_stale 2 = Some (Done 204)) by (vm_compute; reflexivity).
  assert (T3 : forall i, r_task s_stale (S (S (S i))) = None) by (intros i; vm_compute; reflexivity).
  intros i t H. destruct i as [|[|[|i]]]; [rewrite T0 in H|rewrite T1 in H|rewrite T2 in H|rewrite T3 in H];
    try discriminate H; injection H as <-; eauto.
Qed.

(** Bob believes for ever that Ana is there. *)
Lemma stale : exists s u v i k l2 l1 l0, rsteps rst0 s /\ quiet s /\
  r_log s = l2 ++ (k, RBegin (QDelete (u_name u))) :: l1 ++ (i, RResp 201) :: l0 /\ In (i, RStored u) l0 /\
  only (r_log s) u /\ not_again (u_name u) (l2 ++ l1) /\
  on_register (r_log s) (u_name u) = false /\ on_register (r_log s) (u_name v) = true /\
  last_told (r_log s) v (u_name u) = Some true.
Proof.
  exists s_stale, ex_ana, ex_bob, 0%nat, 2%nat,
    [(1%nat, RResp 201); (1%nat, RTold ex_bob true ex_ana); (2%nat, RResp 204); (2%nat, RTold ex_bob false ex_ana);
     (2%nat, RDeleted (str "ana"))],
    [(1%nat, RTold ex_ana true ex_bob); (1%nat, RStored ex_bob); (1%nat, RBegin (QPost ex_bob))].
  eexists. split; [apply stale_steps|]. split; [apply stale_quiet|]. rewrite log_stale_eq.
  - split; [reflexivity|]. split; [inlog|]. split; [only_tac|]. split.
    + intros i u H. repeat (destruct H as [H|H]; [try discriminate H; injection H as _ <-; discriminate|]). destruct H.
    + repeat split; vm_compute; reflexivity.
Qed.

(** Someone who registers after Ana left does not hear of Ana. *)
Definition sched_gone : list cmd :=
  [Begin 0 (QPost ex_ana); Go 0; Go 0; Go 0; Visit 0 ex_ana; Go 0; Begin 1 (QDelete (str "ana")); Go 1; Go 1; Go 1; Go 1].
Definition sched_next : list cmd :=
  [Begin 2 (QPost ex_bob); Go 2; Go 2; Go 2; Visit 2 ex_bob; Go 2;
   Begin 3 (QPost (mk "eve" "tcp" 4003)); Visit 3 ex_bob; Go 3; Go 3; Go 3; Visit 3 ex_bob].
Definition log_next := Eval vm_compute in
  match runs (final sched_gone) sched_next with Some s => firstn 6 (r_log s) | None => [] end.
Lemma not_back : exists s0 s l, rsteps rst0 s0 /\ on_register (r_log s0) (u_name ex_ana) = false /\
  In (0%nat, RStored ex_ana) (r_log s0) /\
  rsteps s0 s /\ r_log s = l ++ r_log s0 /\ not_again (u_name ex_ana) l /\
  In (3%nat, RBegin (QPost (mk "eve" "tcp" 4003))) l /\ In (3%nat, RTold ex_bob true (mk "eve" "tcp" 4003)) l.
Proof.
  assert (Hok : ok (runs (final sched_gone) sched_next) = true) by (vm_compute; reflexivity).
  destruct (runs (final sched_gone) sched_next) as [s|] eqn:E; [|discriminate Hok]. clear Hok.
  exists (final sched_gone), s.
  exists (match runs (final sched_gone) sched_next with Some s => firstn 6 (r_log s) | None => [] end).
  split; [apply final_steps; vm_compute; reflexivity|]. split; [vm_compute; reflexivity|]. split; [vm_compute; inlog|].
  split; [eapply runs_steps, E|].
  assert (El : r_log s = match runs (final sched_gone) sched_next with Some s => r_log s | None => [] end) by (rewrite E; reflexivity).
  rewrite El. clear E El s.
  split; [vm_compute; reflexivity|].
  assert (Ef : match runs (final sched_gone) sched_next with Some s => firstn 6 (r_log s) | None => [] end = log_next)
    by (vm_compute; reflexivity).
  rewrite Ef. split; [|split; inlog].
  intros i u H. repeat (destruct H as [H|H]; [try discriminate H; injection H as _ <-; discriminate|]). destruct H.
Qed.

(** A listing after Ana left. *)
Definition sched_see : list cmd := [Begin 3 (QPost ex_bob); Go 3; Go 3; Go 3; Visit 3 ex_bob; Go 3; Begin 2 QGet; Visit 2 ex_bob; Go 2].
Definition log_see := Eval vm_compute in
  match runs (final sched_gone) sched_see with Some s => firstn 5 (r_log s) | None => [] end.
Lemma lists_gone : exists s0 s l, rsteps rst0 s0 /\ on_register (r_log s0) (u_name ex_ana) = false /\
  In (0%nat, RStored ex_ana) (r_log s0) /\
  rsteps s0 s /\ r_log s = l ++ r_log s0 /\ not_again (u_name ex_ana) l /\
  In (2%nat, RBegin QGet) l /\ In (2%nat, RList [ex_bob]) l.
Proof.
  assert (Hok : ok (runs (final sched_gone) sched_see) = true) by (vm_compute; reflexivity).
  destruct (runs (final sched_gone) sched_see) as [s|] eqn:E; [|discriminate Hok]. clear Hok.
  assert (El : r_log s = match runs (final sched_gone) sched_see with Some s => r_log s | None => [] end) by (rewrite E; reflexivity).
  exists (final sched_gone), s, log_see.
  split; [apply final_steps; vm_compute; reflexivity|]. split; [vm_compute; reflexivity|]. split; [vm_compute; inlog|].
  split; [eapply runs_steps, E|]. rewrite El. clear E El s.
  split; [vm_compute; reflexivity|]. split; [|split; inlog].
  intros i u H. repeat (destruct H as [H|H]; [try discriminate H; injection H as _ <-; discriminate|]). destruct H.
Qed.

Lemma seq_told : In (1%nat, RTold ex_ana true ex_bob) (r_log s_seq) /\
  In (3%nat, RTold ex_ana false ex_bob) (r_log s_seq) /\ In (3%nat, RResp 204) (r_log s_seq).
Proof. rewrite log_seq_eq. split; [inlog|]. split; inlog. Qed.

(** ** Names in URLs *)
Lemma removes_another :
  (exists n path m, unregister_path n = Some path /\ delete_name path = Some m /\ m <> n) /\
  (exists n, n <> [] /\ unregister_path n = None).
Proof.
  split.
  - exists (str "ana#2"), (str "/users/ana"), (str "ana"). repeat split; discriminate.
  - exists (str "100%"). split; [discriminate|reflexivity].
Qed.
Lemma ana_url : names_in_url (str "an%61/b%6F%4a?x#%41y") (str "ana/boJ").
Proof. apply removes_exactly. exists (str "/users/ana/boJ"). split; reflexivity. Qed.
Lemma slice_panics : exists path, path = str "/users" /\ delete_name path = None.
Proof. exists (str "/users"). split; reflexivity. Qed.
Lemma slice_works n : delete_name (str "/users/" ++ n) = Some n.
Proof.
  unfold delete_name. rewrite lenN_app. change (lenN (str "/users/")) with 7.
  destruct (N.leb_spec 7 (7 + lenN n)); [|Lia.lia]. f_equal. apply (dropN_app (str "/users/") n 7 eq_refl).
Qed.

(** ** A user *)
Definition n_bob : bytes := str "bob".
Definition n_eve : bytes := str "eve".

Ltac ustep_tac := cbn; auto; try reflexivity; try discriminate.

Lemma crash_run : exists s, ureach [UCrash; UStore n_eve None; UOther n_eve (str "sctp")] s /\ u_dead s = true.
Proof.
  eexists. split.
  - eapply ur_step; [eapply ur_step; [eapply ur_step; [constructor|]|]|].
    + apply us_other; ustep_tac.
    + apply (us_store _ n_eve None [] []); ustep_tac.
    + apply (us_crash _ n_eve); ustep_tac.
  - reflexivity.
Qed.

Lemma lock_run : exists s, ureach [UPanic n_eve; UStore n_eve None; UOther n_eve (str "sctp")] s /\ u_held s = true.
Proof.
  eexists. split.
  - eapply ur_step; [eapply ur_step; [eapply ur_step; [constructor|]|]|].
    + apply us_other; ustep_tac.
    + apply (us_store _ n_eve None [] []); ustep_tac.
    + apply us_panic; ustep_tac.
  - reflexivity.
Qed.

Lemma unknown_network :
  (exists t s, ureach t s /\ u_dead s = true) /\
  (exists t s, ureach t s /\ u_held s = true /\
     forall t' s', usteps s t' s' -> forall l n c, ~ In (USend l) t' /\ ~ In (UStore n c) t').
Proof.
  split.
  - destruct crash_run as [s H]. eauto.
  - destruct lock_run as [s [H1 H2]]. eexists. exists s. split; [exact H1|]. split; [exact H2|].
    intros t' s' H l n c. destruct (held_for_ever _ _ _ H H2) as [_ A].
    split; intros Hin; apply (A _ Hin).
Qed.

Definition ex_talk : list uev :=
  [USend [(n_eve, 1%nat); (n_bob, 0%nat)]; UStore n_eve (Some 1%nat); UStore n_bob (Some 0%nat); UFail (str "dan");
   UDial n_eve net_tcp 1; UDial n_bob net_udp 0].
Lemma talk_run : exists s, ureach ex_talk s /\ u_tab s = [(n_eve, Some 1%nat); (n_bob, Some 0%nat)] /\ u_open s = [1%nat; 0%nat].
Proof.
  eexists. split; [|split].
  - unfold ex_talk. eapply ur_step; [eapply ur_step; [eapply ur_step; [eapply ur_step; [eapply ur_step; [eapply ur_step; [constructor|]|]|]|]|]|].
    + apply (us_dial ust0); ustep_tac.
    + eapply (us_dial {| u_tab := _; u_open := _; u_pend := _; u_next := 1; u_held := false; u_dead := false |}); ustep_tac.
    + apply (us_fail _ _ net_tcp); ustep_tac.
    + apply (us_store _ n_bob (Some 0%nat) [(n_eve, Some 1%nat)] []); ustep_tac.
    + apply (us_store _ n_eve (Some 1%nat) [] []); ustep_tac.
    + apply us_send; ustep_tac.
  - reflexivity.
  - reflexivity.
Qed.

(** Bob joined twice and left: the first connection stays open. *)
Lemma leak_run : exists t s c, ureach t s /\ known_networks t /\ u_pend s = [] /\ u_tab s = [] /\ In c (u_open s) /\
  latest t n_bob = None.
Proof.
  exists [UClosed n_bob 1; UStore n_bob (Some 1%nat); UDial n_bob net_tcp 1; UStore n_bob (Some 0%nat); UDial n_bob net_tcp 0].
  eexists. exists 0%nat. split; [|split; [|split; [|split; [|split]]]].
  - eapply ur_step; [eapply ur_step; [eapply ur_step; [eapply ur_step; [eapply ur_step; [constructor|]|]|]|]|].
    + apply (us_dial ust0); ustep_tac.
    + apply (us_store _ n_bob (Some 0%nat) [] []); ustep_tac.
    + eapply (us_dial {| u_tab := _; u_open := _; u_pend := _; u_next := 1; u_held := false; u_dead := false |}); ustep_tac.
    + apply (us_store _ n_bob (Some 1%nat) [] []); ustep_tac.
    + apply us_left; ustep_tac.
  - intros n net H. repeat (destruct H as [H|H]; [discriminate H|]). destruct H.
  - reflexivity.
  - reflexivity.
  - left. reflexivity.
  - reflexivity.
Qed.

Lemma leaks : (exists s i j u v, rsteps rst0 s /\ i <> j /\ only (r_log s) u /\ only (r_log s) v /\
     In (i, RTold u true v) (r_log s) /\ In (j, RTold u true v) (r_log s)) /\
  (exists t s c, ureach t s /\ known_networks t /\ u_pend s = [] /\ u_tab s = [] /\ In c (u_open s)).
Proof.
  split.
  - destruct meets as (H & _ & _ & _ & _ & _ & Oa & Ob & _). destruct twice as (_ & T1 & T2).
    exists s_both, 0%nat, 1%nat, ex_ana, ex_bob.
    split; [exact H|]. split; [discriminate|]. split; [exact Oa|]. split; [exact Ob|]. split; [exact T1|exact T2].
  - destruct leak_run as (t & s & c & A & B & D & E & F & _). exists t, s, c. auto.
Qed.

Lemma talk_once : join_once ex_talk.
Proof.
  intros t2 n c t1 E. unfold ex_talk in E.
  repeat (destruct t2 as [|? t2]; cbn in E; [try discriminate E; injection E; intros; subst; reflexivity|injection E as _ E]).
  destruct t2; discriminate E.
Qed.
Lemma talk_known : known_networks ex_talk.
Proof. intros n net H. repeat (destruct H as [H|H]; [discriminate H|]). destruct H. Qed.

Lemma any_name self : forall n r, n <> [] -> exists from, received self r from = n.
Proof. intros n r Hn. exists n. destruct n; [destruct (Hn eq_refl)|reflexivity]. Qed.
