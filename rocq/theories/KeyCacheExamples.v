From Coq Require Import Strings.String.
From Verif Require Import Bytes BytesProofs Crypto Kdf ClientConc KeyCache SpecKeyCache KeyCacheProofs.

(** Executable steps, for examples. *)
Inductive fact := AtTime (n : N) | Call (i : nat) (h : bytes) | Go (i : nat) (r : option pubkey) | GcSee (h : bytes) | GcDel.
Definition fdo (ttl : Z) (s : fstt) (a : fact) : option fstt :=
  match a with
  | AtTime n => if f_now s <=? n then
      Some {| f_now := n; f_map := f_map s; f_pc := f_pc s; f_gc := f_gc s; f_trace := f_trace s |} else None
  | Call i h =>
      match f_pc s i with
      | FIdle => match f_map s h with
                 | Some it => Some (f_go s i (FLoaded h it) (f_map s) [ELoad h])
                 | None => Some (f_go s i (FFetch h) (f_map s) [ELoad h])
                 end
      | _ => None
      end
  | Go i r =>
      match f_pc s i with
      | FIdle => None
      | FLoaded h it =>
          if (ttl <=? 0)%Z then Some (f_go s i FIdle (f_map s) [ECached h (ce_key it) (ce_at it)])
          else if expired ttl (f_now s) it then Some (f_go s i (FDelete h) (f_map s) [])
          else Some (f_go s i FIdle (f_map s) [ECached h (ce_key it) (ce_at it)])
      | FDelete h => Some (f_go s i (FFetch h) (hset (f_map s) h None) [])
      | FFetch h => match r with
                    | Some pk => Some (f_go s i (FNow h pk) (f_map s) [EAsk h (Some pk)])
                    | None => Some (f_go s i FIdle (f_map s) [EFail h; EAsk h None])
                    end
      | FNow h pk => Some (f_go s i (FStore h {| ce_key := pk; ce_at := f_now s |}) (f_map s) [])
      | FStore h it => Some (f_go s i FIdle (hset (f_map s) h (Some it)) [EFresh h (ce_key it)])
      end
  | GcSee h =>
      match f_gc s with
      | GIdle => match f_map s h with
                 | Some it => if (0 <? ttl)%Z && expired ttl (f_now s) it then Some (f_gc_go s (GDelete h) (f_map s)) else None
                 | None => None
                 end
      | _ => None
      end
  | GcDel => match f_gc s with GDelete h => Some (f_gc_go s GIdle (hset (f_map s) h None)) | GIdle => None end
  end.
Fixpoint frun (ttl : Z) (s : fstt) (l : list fact) : option fstt :=
  match l with [] => Some s | a :: r => match fdo ttl s a with Some s' => frun ttl s' r | None => None end end.

Lemma fdo_step ttl s a s' : fdo ttl s a = Some s' -> fstep ttl s s'.
Proof.
  destruct a; cbn [fdo].
  - destruct (N.leb_spec (f_now s) n); [|discriminate]. intros [= <-]. apply FTick. assumption.
  - destruct (f_pc s i) eqn:P; try discriminate. destruct (f_map s h) eqn:M; intros [= <-].
    + apply FCallHit; assumption.
    + apply FCallMiss; assumption.
  - destruct (f_pc s i) eqn:P; try discriminate.
    + destruct (Z.leb_spec ttl 0); [intros [= <-]; apply FReturn; auto|].
      destruct (expired ttl (f_now s) it) eqn:E; intros [= <-].
      * apply (FExpired ttl s i h it); auto.
      * apply FReturn; auto.
    + intros [= <-]. apply FDeleted. exact P.
    + destruct r; intros [= <-]; [apply FAsked|apply FFailed]; exact P.
    + intros [= <-]. apply FTimed. exact P.
    + intros [= <-]. apply FStored. exact P.
  - destruct (f_gc s) eqn:G; [|discriminate]. destruct (f_map s h) eqn:M; [|discriminate].
    destruct ((0 <? ttl)%Z && expired ttl (f_now s) c) eqn:E; [|discriminate]. apply andb_prop in E as [E1 E2].
    apply Z.ltb_lt in E1. intros [= <-]. apply (FGcSee ttl s h c); auto.
  - destruct (f_gc s) eqn:G; [discriminate|]. intros [= <-]. apply FGcDelete. exact G.
Qed.
Lemma frun_steps ttl l : forall s s', frun ttl s l = Some s' -> fsteps ttl s s'.
Proof.
  assert (A : forall s s' s'', fstep ttl s s' -> fsteps ttl s' s'' -> fsteps ttl s s'').
  { intros s s' s'' H R. induction R; [apply (FMore ttl s s); [constructor|exact H]|]. eapply FMore; eauto. }
  induction l as [|a l IH]; intros s s'; cbn [frun]; [intros [= <-]; constructor|].
  destruct (fdo ttl s a) eqn:E; [|discriminate]. intros H. eapply A; [apply (fdo_step _ _ _ _ E)|apply IH, H].
Qed.
Lemma fsteps_reachable ttl s s' : freachable ttl s -> fsteps ttl s s' -> freachable ttl s'.
Proof. intros R. induction 1; [exact R|]. eapply FNext; eauto. Qed.
Lemma frun_reachable ttl l s : frun ttl f0 l = Some s -> freachable ttl s.
Proof. intros H. apply (fsteps_reachable ttl f0); [constructor|apply (frun_steps _ _ _ _ H)]. Qed.

Definition ex_h : bytes := str "example.com".
Definition ex_k1 : pubkey := PkEd25519 [x01].
Definition ex_k2 : pubkey := PkEd25519 [x02].
Definition ex_fetch (i : nat) (k : pubkey) : list fact := [Call i ex_h; Go i (Some k); Go i None; Go i None].

(** The cache serves up to the TTL, refetches after it, keeps no errors. *)
Definition ex_normal : list fact :=
  [Call 0 ex_h; Go 0 None] ++ ex_fetch 0 ex_k1 ++ [AtTime 10; Call 0 ex_h; Go 0 None; AtTime 11; Call 0 ex_h; Go 0 None; Go 0 None;
    Go 0 (Some ex_k2); Go 0 None; Go 0 None].
Definition ex_normal_events : list fev :=
  [ELoad ex_h; EAsk ex_h None; EFail ex_h; ELoad ex_h; EAsk ex_h (Some ex_k1); EFresh ex_h ex_k1;
   ELoad ex_h; ECached ex_h ex_k1 0; ELoad ex_h; EAsk ex_h (Some ex_k2); EFresh ex_h ex_k2].

(** The collector sees the expired entry, a Fetch replaces it, the collector
    deletes the new one. *)
Definition ex_race : list fact :=
  ex_fetch 0 ex_k1 ++ [AtTime 11; GcSee ex_h; Call 1 ex_h; Go 1 None; Go 1 None; Go 1 (Some ex_k2); Go 1 None; Go 1 None;
    GcDel; Call 2 ex_h; Go 2 (Some ex_k2)].
Lemma race_refetch : exists s pre i t t' pk r, freachable 10 s /\
  f_trace s = (i, t', EAsk ex_h r) :: (i, t', ELoad ex_h) :: (1%nat, t, EFresh ex_h pk) :: pre /\ (Z.of_N t' - Z.of_N t <= 10)%Z.
Proof.
  destruct (frun 10 f0 ex_race) as [s|] eqn:E; [|vm_compute in E; discriminate].
  pose proof (frun_reachable _ _ _ E) as R.
  assert (option_map f_trace (frun 10 f0 ex_race) = Some (f_trace s)) as T by (rewrite E; reflexivity).
  vm_compute in T. injection T as T. exists s, [(1%nat, 11, EAsk ex_h (Some ex_k2)); (1%nat, 11, ELoad ex_h);
    (0%nat, 0, EFresh ex_h ex_k1); (0%nat, 0, EAsk ex_h (Some ex_k1)); (0%nat, 0, ELoad ex_h)], 2%nat, 11, 11, ex_k2, (Some ex_k2).
  split; [exact R|]. split; [symmetry; exact T|lia].
Qed.
