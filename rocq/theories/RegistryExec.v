(** Running the registry on a schedule, for examples. *)
From Coq Require Import Strings.String.
From Verif Require Import Bytes BytesProofs Kdf Registry.

Definition user_eqb (a b : user) : bool :=
  bytes_eqb (u_name a) (u_name b) && bytes_eqb (u_network a) (u_network b) &&
  bytes_eqb (u_host a) (u_host b) && (u_server a =? u_server b) && (u_notify a =? u_notify b).
Lemma user_eqb_true a b : user_eqb a b = true -> a = b.
Proof.
  unfold user_eqb. rewrite !Bool.andb_true_iff. intros ((((A & B) & C) & D) & E). destruct a, b. cbn in *.
  destruct (bytes_eqb_spec u_name u_name0); [|discriminate]. destruct (bytes_eqb_spec u_network u_network0); [|discriminate].
  destruct (bytes_eqb_spec u_host u_host0); [|discriminate]. apply N.eqb_eq in D, E. subst. reflexivity.
Qed.

Definition mem (n : bytes) (l : list bytes) : bool := existsb (bytes_eqb n) l.
Lemma mem_spec n l : mem n l = true <-> In n l.
Proof.
  unfold mem. rewrite existsb_exists. split.
  - intros (x & Hx & E). destruct (bytes_eqb_spec n x) as [->|]; [exact Hx|discriminate].
  - intros H. exists n. split; [exact H|apply bytes_eqb_refl].
Qed.

Definition visitsb (r : rng) (v : user) : bool := existsb (user_eqb v) (r_may r) && negb (mem (u_name v) (r_seen r)).
Lemma visitsb_true r v : visitsb r v = true -> visits r v.
Proof.
  unfold visitsb. rewrite Bool.andb_true_iff. intros [A B]. split.
  - apply existsb_exists in A. destruct A as (x & Hx & E). apply user_eqb_true in E. subst x. exact Hx.
  - intros H. apply mem_spec in H. rewrite H in B. discriminate.
Qed.
Definition doneb (r : rng) : bool := forallb (fun n => mem n (r_seen r)) (r_must r).
Lemma doneb_true r : doneb r = true -> range_done r.
Proof. intros H n Hn. apply mem_spec. exact (proj1 (forallb_forall _ _) H n Hn). Qed.

(** Request [i] begins, goes on, or visits a user. *)
Inductive cmd := Begin (i : nat) (q : req) | Go (i : nat) | Visit (i : nat) (v : user).

Definition exec (s : rst) (c : cmd) : option rst :=
  match c with
  | Begin i q =>
      match r_task s i with
      | None => Some (r_add (r_set s i (r_first s q)) i (RBegin q))
      | Some _ => None
      end
  | Go i =>
      match r_task s i with
      | Some (PCheck u r) => if doneb r then Some (r_set s i (PStore u)) else None
      | Some (PStore u) =>
          Some (r_add (r_set (r_change s (st_put (r_store s) u) (fun r => r_stored r u)) i (PStored u)) i (RStored u))
      | Some (PStored u) => Some (r_set s i (PTell u (r_start (r_store s))))
      | Some (PTell u r) => if doneb r then Some (r_add (r_set s i (Done 201)) i (RResp 201)) else None
      | Some (PTell2 u v r) => Some (r_add (r_set s i (PTell u r)) i (RTold u true v))
      | Some (DLoad n) =>
          match st_get (r_store s) n with
          | None => Some (r_add (r_set s i (Done 404)) i (RResp 404))
          | Some u => Some (r_set s i (DDel u))
          end
      | Some (DDel u) =>
          Some (r_add (r_set (r_change s (st_del (r_store s) (u_name u)) (fun r => r_deleted r (u_name u))) i (DGone u))
                   i (RDeleted (u_name u)))
      | Some (DGone u) => Some (r_set s i (DTell u (r_start (r_store s))))
      | Some (DTell u r) => if doneb r then Some (r_add (r_set s i (Done 204)) i (RResp 204)) else None
      | Some (GList r acc) => if doneb r then Some (r_add (r_set s i (Done 200)) i (RList acc)) else None
      | _ => None
      end
  | Visit i v =>
      match r_task s i with
      | Some (PCheck u r) =>
          if visitsb r v then
            if bytes_eqb (u_name v) (u_name u) then Some (r_add (r_set s i (Done 409)) i (RResp 409))
            else Some (r_set s i (PCheck u (r_visit r (u_name v))))
          else None
      | Some (PTell u r) =>
          if visitsb r v then
            if bytes_eqb (u_name v) (u_name u) then Some (r_set s i (PTell u (r_visit r (u_name v))))
            else Some (r_add (r_set s i (PTell2 u v (r_visit r (u_name v)))) i (RTold v true u))
          else None
      | Some (DTell u r) =>
          if visitsb r v then Some (r_add (r_set s i (DTell u (r_visit r (u_name v)))) i (RTold v false u)) else None
      | Some (GList r acc) =>
          if visitsb r v then Some (r_set s i (GList (r_visit r (u_name v)) (acc ++ [v]))) else None
      | _ => None
      end
  end.

Lemma exec_step s c s' : exec s c = Some s' -> rstep s s'.
Proof.
  destruct c as [i q|i|i v]; cbn -[st_put st_del].
  - destruct (r_task s i) eqn:E; [discriminate|]. intros H. injection H as <-. apply r_begin, E.
  - destruct (r_task s i) as [[]|] eqn:E; try discriminate.
    + destruct (doneb r) eqn:D; [|discriminate]. intros H. injection H as <-. eapply r_free; eauto using doneb_true.
    + intros H. injection H as <-. apply r_put, E.
    + intros H. injection H as <-. apply r_tell, E.
    + destruct (doneb r) eqn:D; [|discriminate]. intros H. injection H as <-. eapply r_created; eauto using doneb_true.
    + intros H. injection H as <-. apply r_told2, E.
    + destruct (st_get (r_store s) n) eqn:D; intros H; injection H as <-; [eapply r_found; eauto|eapply r_missing; eauto].
    + intros H. injection H as <-. apply r_del, E.
    + intros H. injection H as <-. apply r_bye, E.
    + destruct (doneb r) eqn:D; [|discriminate]. intros H. injection H as <-. eapply r_removed; eauto using doneb_true.
    + destruct (doneb r) eqn:D; [|discriminate]. intros H. injection H as <-. eapply r_listed; eauto using doneb_true.
  - destruct (r_task s i) as [[]|] eqn:E; try discriminate;
      destruct (visitsb r v) eqn:D; try discriminate; apply visitsb_true in D.
    + destruct (bytes_eqb_spec (u_name v) (u_name u)) as [En|En]; intros H; injection H as <-;
        [eapply r_conflict; eauto|eapply r_other; eauto].
    + destruct (bytes_eqb_spec (u_name v) (u_name u)) as [En|En]; intros H; injection H as <-;
        [eapply r_self; eauto|eapply r_told; eauto].
    + intros H. injection H as <-. eapply r_left; eauto.
    + intros H. injection H as <-. eapply r_list; eauto.
Qed.

Fixpoint runs (s : rst) (l : list cmd) : option rst :=
  match l with [] => Some s | c :: l => match exec s c with Some s' => runs s' l | None => None end end.

Lemma rsteps_trans a b c : rsteps a b -> rsteps b c -> rsteps a c.
Proof.
  intros H1 H2. revert H1. induction H2 as [s|s s1 s2 H IH Hs]; intros H1; [exact H1|].
  exact (rs_step _ _ _ (IH H1) Hs).
Qed.

Lemma runs_steps l : forall s s', runs s l = Some s' -> rsteps s s'.
Proof.
  induction l as [|c l IH]; cbn; intros s s' H; [injection H as <-; constructor|].
  destruct (exec s c) as [s1|] eqn:E; [|discriminate]. eapply rsteps_trans; [|apply IH, H].
  eapply rs_step; [constructor|apply (exec_step s c), E].
Qed.

(** A user on the loopback interface. *)
Definition mk (n net : string) (p : N) : user :=
  {| u_name := str n; u_network := str net; u_host := str "127.0.0.1"; u_server := p; u_notify := p + 1000 |}.
Definition ex_ana : user := mk "ana" "tcp" 4000.
Definition ex_bob : user := mk "bob" "udp" 4001.
(** Another program that calls itself Ana. *)
Definition ex_ana2 : user := mk "ana" "tcp" 4002.

(** Two registrations at once. *)
Definition sched_both : list cmd :=
  [Begin 0 (QPost ex_ana); Begin 1 (QPost ex_bob); Go 0; Go 1; Go 0; Go 1;
   Go 0; Visit 0 ex_ana; Visit 0 ex_bob; Go 1; Visit 1 ex_bob; Go 0; Visit 1 ex_ana; Go 1; Go 0; Go 1].
(** Two registrations under one name at once. *)
Definition sched_same : list cmd :=
  [Begin 0 (QPost ex_ana); Begin 1 (QPost ex_ana2); Go 0; Go 1; Go 0; Go 1;
   Go 0; Visit 0 ex_ana2; Go 0; Go 1; Visit 1 ex_ana2; Go 1].
(** One after the other, a listing, and a departure. *)
Definition sched_seq : list cmd :=
  [Begin 0 (QPost ex_ana); Go 0; Go 0; Go 0; Visit 0 ex_ana; Go 0;
   Begin 1 (QPost ex_bob); Visit 1 ex_ana; Go 1; Go 1; Go 1; Visit 1 ex_ana; Go 1; Visit 1 ex_bob; Go 1;
   Begin 2 QGet; Visit 2 ex_bob; Visit 2 ex_ana; Go 2;
   Begin 3 (QDelete (str "bob")); Go 3; Go 3; Go 3; Visit 3 ex_ana; Go 3].
(** Ana leaves while Bob is being told that Ana is there. *)
Definition sched_stale : list cmd :=
  [Begin 0 (QPost ex_ana); Go 0; Go 0; Go 0; Visit 0 ex_ana; Go 0;
   Begin 1 (QPost ex_bob); Visit 1 ex_ana; Go 1; Go 1; Go 1; Visit 1 ex_ana;
   Begin 2 (QDelete (str "ana")); Go 2; Go 2; Go 2; Visit 2 ex_bob; Go 2;
   Go 1; Visit 1 ex_bob; Go 1].
Definition runs_log (l : list cmd) : list (nat * rev) :=
  match runs rst0 l with Some s => r_log s | None => [] end.
