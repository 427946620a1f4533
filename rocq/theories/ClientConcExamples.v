(** Concrete executions of concurrent clients, for examples: a schedule names the
    instance that moves; the network is friendly. *)
From Verif Require Import Bytes BytesProofs Parser ParserProofs Crypto Wire WireSeq Toy Server Keys Client ClientSeq
  SpecClient ServerExamples ClientExamples ClientConc SpecClientConc.

Definition kpick (C : Crypto) (W : world) (cl : nat) (k : kst) (inp : bytes) {R} (e : ceff R) : R * kst * bytes :=
  match e in ceff R return R * kst * bytes with
  | CRead n => let '(r, i) := fl_read n inp EndEOF in (r, k, i)
  | CCopy n => let '(r, i) := fl_copy n inp EndEOF in (r, k, i)
  | CAlloc _ => (tt, k, inp)
  | CWrite b => ((lenN b, false), k, inp)
  | CDeadline => (true, k, inp)
  | CFetch _ => (None, k, inp)
  | CRand => (None, k, inp)
  | CGen => (None, k, inp)
  | CAdd => let c := (k_ctr k (w_session W cl) + 1) mod two64 in (c, k_set_ctr k (w_session W cl) c, inp)
  | CSetLast c => (tt, k_set_last k cl c, inp)
  | CGetLast => (k_last k cl, k, inp)
  | CGetBuf => (k_buf k cl, k, inp)
  | CSetBuf b => (tt, k_set_buf k cl b, inp)
  | CSeal _ key nonce pt => (gcm_seal C key nonce pt, k, inp)
  end.
Lemma kpick_ok C W cl k inp R (e : ceff R) : let '(r, k', _) := kpick C W cl k inp e in kans C W cl k e r k'.
Proof.
  destruct e; cbn [kpick kans]; auto.
  - unfold fl_read. destruct (N.leb_spec n (lenN inp)) as [E|E]; cbn; auto.
    split; [reflexivity|]. rewrite takeN_len. lia.
  - unfold fl_copy. destruct (N.leb_spec n (lenN inp)) as [E|E]; cbn; (split; [reflexivity|]); [rewrite takeN_len|]; lia.
Qed.

(** [n] steps of instance [i] with [inp] waiting on its connection. *)
Fixpoint kmove (C : Crypto) (W : world) (i : nat) (n : nat) (inp : bytes) (k : kst) : kst * bytes :=
  match n with
  | O => (k, inp)
  | S n' => match k_inst k i with
            | Some {| o_client := cl; o_op := o; o_prog := CDo e f |} =>
                let '(r, k', inp') := kpick C W cl k inp e in
                kmove C W i n' inp' (k_log (k_set_inst k' i {| o_client := cl; o_op := o; o_prog := f r |}) i (kev_of W cl e r))
            | _ => (k, inp)
            end
  end.
Lemma kmove_reach C W i n : forall inp k, kreachable C W k -> kreachable C W (fst (kmove C W i n inp k)).
Proof.
  induction n as [|n IH]; intros inp k H; cbn [kmove]; auto.
  destruct (k_inst k i) as [[cl o [a| |R e f]]|] eqn:Ei; auto.
  pose proof (kpick_ok C W cl k inp R e) as P. destruct (kpick C W cl k inp e) as [[r k'] inp'].
  apply IH. eapply KNext; [exact H|].
  eapply (KStep C W k i {| o_client := cl; o_op := o; o_prog := CDo e f |}); eauto.
Qed.
Definition kstart (C : Crypto) (W : world) (i cl : nat) (o : op) (k : kst) : kst :=
  k_set_inst k i {| o_client := cl; o_op := o; o_prog := op_prog C W cl o |}.
Lemma kstart_reach C W i cl o k : kreachable C W k -> k_inst k i = None -> kreachable C W (kstart C W i cl o k).
Proof. intros H Hi. eapply KNext; [exact H|]. apply KSpawn, Hi. Qed.

(** Clients 0 and 1 share session 0; their writes interleave, then client 0 reads
    the reply to its own message, which got counter 2. *)
Definition ex_W : world := {| w_session := fun _ => 0%nat; w_secret := fun _ => ex_ses; w_opts := fun _ => ex_opts |}.
Definition ex_k1 : kst :=
  let k := kstart toy ex_W 0 0 (OpWrite [x41]) k0 in
  let k := kstart toy ex_W 1 1 (OpWrite [x42]) k in
  let k := fst (kmove toy ex_W 0 1 [] k) in
  let k := fst (kmove toy ex_W 1 3 [] k) in
  let k := fst (kmove toy ex_W 0 9 [] k) in
  fst (kmove toy ex_W 1 9 [] k).
Definition ex_reply2 (m : bytes) : bytes :=
  enc_response (RsProcess 2 (gcm_seal toy ex_ckey (gcm_nonce dir_s2c 2) m)).
Definition ex_k2 : kst := fst (kmove toy ex_W 2 40 (ex_reply2 [x41; x21]) (kstart toy ex_W 2 0 (OpRead 8) ex_k1)).
Lemma ex_k1_reach : kreachable toy ex_W ex_k1.
Proof.
  unfold ex_k1. cbv zeta.
  repeat first [apply kmove_reach | apply kstart_reach; [|vm_compute; reflexivity]]. constructor.
Qed.
Lemma ex_k2_reach : kreachable toy ex_W ex_k2.
Proof. unfold ex_k2. apply kmove_reach, kstart_reach; [apply ex_k1_reach|vm_compute; reflexivity]. Qed.

Lemma ex_k2_facts : kreachable toy ex_W ex_k2 /\ distinct_keys toy ex_W ex_k2 /\
  option_map o_prog (k_inst ex_k2 2) = Some (CRet (inl (RdOk [x41; x21] true))) /\
  accepted toy ex_W ex_k2 0 2 (gcm_seal toy ex_ckey (gcm_nonce dir_s2c 2) [x41; x21]) [x41; x21] /\
  wrote ex_k2 0 2 [x41].
Proof.
  split; [exact ex_k2_reach|]. split.
  { intros s s' key (i & cl & o & _ & ->) (i' & cl' & o' & _ & ->) _ _. reflexivity. }
  split; [vm_compute; reflexivity|]. split.
  - exists 2%nat, 8, ex_ckey. split; [eexists; split; [vm_compute; reflexivity|split; reflexivity]|].
    split; [exists x80; split; [vm_compute; reflexivity|]; split; [vm_compute; discriminate|]; split; [reflexivity|vm_compute; discriminate]|].
    split; [exists (firstn 4 (k_trace ex_k2)), (skipn 5 (k_trace ex_k2)); vm_compute; auto|].
    split; vm_compute; reflexivity.
  - exists 0%nat. split; [eexists; split; [vm_compute; reflexivity|split; reflexivity]|]. vm_compute. tauto.
Qed.
