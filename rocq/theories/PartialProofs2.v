(** What remains true of expectations about stores and shared sessions. *)
From Verif Require Import Bytes BytesProofs Parser ParserProofs Crypto Kdf Wire WireProofs WireSeq WireExtra Server Keys
  Client ClientSeq SpecClient Replay SpecReplay ReplayProofs SecretMgr SecretMgrProofs Dnssec SpecDnssec DnssecThms
  ClientConc SpecClientConc ClientConcProofs ClientConcThms KeyCache SpecKeyCache KeyCacheProofs SpecPartial.

(** ** C77 *)
Lemma first_usable answers good alg raw pk : In good answers -> zsk good alg raw -> material alg raw pk ->
  (forall x a r, In x answers -> zsk x a r -> exists k, material a r k) ->
  exists pre x post a r k, answers = pre ++ x :: post /\ zsk x a r /\ material a r k /\
    (forall y b q, In y pre -> ~ zsk y b q) /\ doh_retrieve (DohAnswer 200 (Some (true, answers))) = KOk k.
Proof.
  intros I Z M W.
  assert (F : exists pre x post a r k, answers = pre ++ x :: post /\ zsk x a r /\ material a r k /\ (forall y b q, In y pre -> ~ zsk y b q)).
  { clear M. revert I W. induction answers as [|x l IH]; [intros []|]. intros I W.
    destruct (parse_cases x) as [(a & r & Zx)|H].
    - destruct (W x a r (or_introl eq_refl) Zx) as [k Mk]. exists [], x, l, a, r, k. repeat split; auto.
    - assert (N : forall b q, ~ zsk x b q).
      { intros b q Zx. destruct H as [[_ H]|(H & _ & N)]; [|exact (N _ _ Zx)].
        rewrite (parse_zsk _ _ _ Zx) in H. destruct (proj1 (decode_key_spec b q)) as (? & E & _); [destruct Zx as (?&?&?&?&?); tauto|congruence]. }
      destruct I as [->|I]; [destruct (N _ _ Z)|].
      destruct (IH I (fun y a r Iy => W y a r (or_intror Iy))) as (pre & y & post & a & r & k & -> & Zy & My & Hp).
      exists (x :: pre), y, post, a, r, k. repeat split; auto. intros z b q [<-|Iz]; auto. }
  destruct F as (pre & x & post & a & r & k & E & Zx & Mx & Hp). exists pre, x, post, a, r, k. repeat split; auto.
  apply doh_selects. exists pre, x, post. subst answers. split; [reflexivity|].
  split; [red; rewrite (parse_zsk _ _ _ Zx); apply decode_material, Mx|]. intros y k' Iy P. red in P.
  assert (Np : forall b q, ~ zsk y b q) by (intros b q; apply Hp, Iy).
  destruct (parse_cases y) as [(b & q & Zy)|[[_ H]|[H _]]]; [exact (Np _ _ Zy)|congruence|congruence].
Qed.

(** ** C79 *)
Lemma now_mono ttl s s' : fsteps ttl s s' -> f_now s <= f_now s'.
Proof. induction 1 as [|s' s'' _ IH St]; [lia|]. destruct St; cbn; lia. Qed.
Lemma fresh_is_served ttl s s' h it : f_map s h = Some it -> f_gc s <> GDelete h ->
  (forall i, ~ busy_with (f_pc s i) h) -> fsteps ttl s s' -> (Z.of_N (f_now s') - Z.of_N (ce_at it) <= ttl)%Z ->
  f_map s' h = Some it /\ exists new, f_trace s' = new ++ f_trace s /\
    forall i t e, In (i, t, e) new -> (forall r, e <> EAsk h r) /\ (forall pk a, e = ECached h pk a -> pk = ce_key it).
Proof.
  intros M G Q R T.
  assert (K : f_map s' h = Some it /\ f_gc s' <> GDelete h /\
    (forall i, busy_with (f_pc s' i) h -> f_pc s' i = FLoaded h it) /\
    exists new, f_trace s' = new ++ f_trace s /\
    forall i t e, In (i, t, e) new ->
      (forall r, e <> EAsk h r) /\ (forall pk a, e = ECached h pk a -> pk = ce_key it)).
  2:{ destruct K as (K1 & _ & _ & K2). auto. }
  induction R as [|s' s'' R IH St].
  - repeat split; auto; [|exists []; split; [reflexivity|intros i t e []]]. intros i B. destruct (Q i B).
  - assert (T' : (Z.of_N (f_now s') - Z.of_N (ce_at it) <= ttl)%Z).
    { assert (f_now s' <= f_now s'') by (destruct St; cbn; lia). lia. }
    assert (X : expired ttl (f_now s') it = false) by (unfold expired; apply Z.ltb_ge; exact T').
    destruct (IH T') as (Hm & Hg & Hp & new & E & Hn).
    assert (Hpc : forall i p m ev, (forall j, j <> i -> busy_with (f_pc s' j) h -> f_pc s' j = FLoaded h it) ->
      (busy_with p h -> p = FLoaded h it) ->
      forall j, busy_with (f_pc (f_go s' i p m ev) j) h -> f_pc (f_go s' i p m ev) j = FLoaded h it).
    { intros i p m ev H1 H2 j. cbn. unfold upd. destruct (Nat.eqb_spec j i); auto. }
    assert (Hev : forall i p m ev, (forall e, In e ev -> (forall r, e <> EAsk h r) /\ (forall pk a, e = ECached h pk a -> pk = ce_key it)) ->
      exists new, f_trace (f_go s' i p m ev) = new ++ f_trace s /\
        forall j t e, In (j, t, e) new -> (forall r, e <> EAsk h r) /\ (forall pk a, e = ECached h pk a -> pk = ce_key it)).
    { intros i p m ev H. exists (map (fun e => (i, f_now s', e)) ev ++ new). cbn [f_go f_trace]. rewrite E, app_assoc.
      split; [reflexivity|]. intros j t e I. apply in_app_or in I as [I|I]; [|apply (Hn _ _ _ I)].
      apply in_map_iff in I as (e' & [= _ _ <-] & I). apply H, I. }
    assert (D : forall i h', f_pc s' i = FDelete h' \/ f_pc s' i = FFetch h' \/ (exists pk, f_pc s' i = FNow h' pk) \/
      (exists it', f_pc s' i = FStore h' it') -> h' <> h).
    { intros i h' H ->. specialize (Hp i). destruct H as [H|[H|[[? H]|[? H]]]]; rewrite H in Hp; specialize (Hp eq_refl); discriminate. }
    destruct St as [n L|i h' it' P M'|i h' P M'|i h' it' P F|i h' it' P Z F|i h' P|i h' pk P|i h' P|i h' pk P|i h' it' P|h' it' G' Z M' F|h' G'].
    + cbn. repeat split; auto. exists new. auto.
    + split; [exact Hm|]. split; [exact Hg|]. split.
      * apply Hpc; [auto|]. cbn. intros ->. congruence.
      * apply Hev. intros e [<-|[]]. split; discriminate.
    + split; [exact Hm|]. split; [exact Hg|]. split.
      * apply Hpc; [auto|]. cbn. intros ->. congruence.
      * apply Hev. intros e [<-|[]]. split; discriminate.
    + split; [exact Hm|]. split; [exact Hg|]. split.
      * apply Hpc; [auto|]. intros [].
      * apply Hev. intros e [<-|[]]. split; [discriminate|]. intros pk a [= -> <- _].
        specialize (Hp i). rewrite P in Hp. specialize (Hp eq_refl). congruence.
    + assert (D' : h' <> h).
      { intros ->. specialize (Hp i). rewrite P in Hp. specialize (Hp eq_refl). injection Hp as ->. congruence. }
      split; [exact Hm|]. split; [exact Hg|]. split.
      * apply Hpc; [auto|]. cbn. congruence.
      * apply Hev. intros e [].
    + specialize (D i h' (or_introl P)).
      split; [cbn; unfold hset; destruct (bytes_eqb_spec h h'); [congruence|exact Hm]|]. split; [exact Hg|]. split.
      * apply Hpc; [auto|]. cbn. congruence.
      * apply Hev. intros e [].
    + specialize (D i h' (or_intror (or_introl P))).
      split; [exact Hm|]. split; [exact Hg|]. split.
      * apply Hpc; [auto|]. cbn. congruence.
      * apply Hev. intros e [<-|[]]. split; [intros r; congruence|discriminate].
    + specialize (D i h' (or_intror (or_introl P))).
      split; [exact Hm|]. split; [exact Hg|]. split.
      * apply Hpc; [auto|]. intros [].
      * apply Hev. intros e [<-|[<-|[]]]; (split; [intros r; congruence|discriminate]).
    + specialize (D i h' (or_intror (or_intror (or_introl (ex_intro _ _ P))))).
      split; [exact Hm|]. split; [exact Hg|]. split.
      * apply Hpc; [auto|]. cbn. congruence.
      * apply Hev. intros e [].
    + specialize (D i h' (or_intror (or_intror (or_intror (ex_intro _ _ P))))).
      split; [cbn; unfold hset; destruct (bytes_eqb_spec h h'); [congruence|exact Hm]|]. split; [exact Hg|]. split.
      * apply Hpc; [auto|]. intros [].
      * apply Hev. intros e [<-|[]]. split; discriminate.
    + cbn. split; [exact Hm|]. split; [congruence|]. split; [exact Hp|]. exists new. auto.
    + cbn. assert (h' <> h) by congruence. split; [unfold hset; destruct (bytes_eqb_spec h h'); [congruence|exact Hm]|].
      split; [discriminate|]. split; [exact Hp|]. exists new. auto.
Qed.

(** ** C25 and C26 *)
Lemma mnow_mono ttl tr : forall s, (ms_now s <= ms_now (fold_left (mstep ttl) tr s))%Z.
Proof.
  induction tr as [|e tr IH]; intros s; [cbn; lia|]. cbn [fold_left]. etransitivity; [|apply IH].
  destruct e as [t p|t|d|k|]; cbn [mstep].
  - destruct (_ && _); cbn; lia.
  - destruct (ms_pc s t); cbn; try lia. destruct (ms_map s k); cbn; lia.
  - cbn. lia.
  - destruct (ms_gc s), (ms_map s k); cbn; try lia. destruct (_ && _); cbn; lia.
  - destruct (ms_gc s); cbn; lia.
Qed.
Record held (k : bytes) (p : nat) (t0 : Z) (calls_ : nat -> Prop) (s : mstate) : Prop := {
  h_map : exists it, ms_map s k = Some it /\ it_session it = p /\ (t0 <= it_last it)%Z;
  h_now : (t0 <= ms_now s)%Z;
  h_gc : ms_gc s <> Some k;
  h_pc : forall t, match ms_pc s t with
    | MpStore k' _ | MpStore2 k' _ _ => k' <> k
    | MpLoad2 k' it => k' = k -> it_session it = p
    | MpLoad3 k' it now => k' = k -> it_session it = p /\ (t0 <= now)%Z
    | MpLoaded k' r => k' = k -> calls_ t -> r = Some p
    | _ => True
    end }.
Lemma held_pc_set k p t0 (cs : nat -> Prop) s t q :
  held k p t0 cs s ->
  (match q with
    | MpStore k' _ | MpStore2 k' _ _ => k' <> k
    | MpLoad2 k' it => k' = k -> it_session it = p
    | MpLoad3 k' it now => k' = k -> it_session it = p /\ (t0 <= now)%Z
    | MpLoaded k' r => k' = k -> cs t -> r = Some p
    | _ => True
    end) -> held k p t0 cs (set_pc s t q).
Proof.
  intros [H1 H2 H3 H4] Hq. constructor; try assumption. intros t'. cbn. unfold mupd. destruct (Nat.eqb_spec t' t) as [->|]; [exact Hq|apply H4].
Qed.
Lemma held_step ttl k p t0 (cs : nat -> Prop) s e : held k p t0 cs s -> (forall t q, e <> MeCall t (MpStore k q)) ->
  ((0 < ttl)%Z -> (ms_now (mstep ttl s e) - t0 <= ttl)%Z) ->
  held k p t0 (fun t => cs t \/ exists q, e = MeCall t q /\ is_call q = true) (mstep ttl s e).
Proof.
  intros H Ns Ht.
  assert (W : forall (cs' : nat -> Prop) x, (forall t, cs' t -> cs t \/ quiet (ms_pc s t) = false \/ is_call (ms_pc x t) = true) -> held k p t0 cs x ->
    (forall t, is_call (ms_pc x t) = false -> ms_pc x t = ms_pc s t \/ cs t \/ ~ cs' t) -> held k p t0 cs' x).
  { intros cs' x Hc [H1 H2 H3 H4] Hx. constructor; try assumption. intros t. specialize (H4 t). specialize (Hc t). specialize (Hx t).
    destruct (ms_pc x t) as [| | | | | | |k' r] eqn:P; try exact H4. intros Hk Ct. apply H4; [exact Hk|].
    destruct (Hc Ct) as [|[Q|Q]]; [assumption| |discriminate].
    destruct (Hx eq_refl) as [E|[|]]; [rewrite <- E in Q; discriminate|assumption|contradiction]. }
  assert (W1 : forall x, held k p t0 cs x -> (forall t q, e = MeCall t q -> False) -> held k p t0 (fun t => cs t \/ exists q, e = MeCall t q /\ is_call q = true) x).
  { intros x [H1 H2 H3 H4] He. constructor; try assumption. intros t. specialize (H4 t).
    destruct (ms_pc x t) as [| | | | | | |k' r]; try exact H4. intros Hk [Ct|(q & E & _)]; [auto|destruct (He _ _ E)]. }
  destruct e as [t q|t|d|k'|]; cbn [mstep] in *.
  - destruct (is_call q) eqn:Eq.
    + destruct (quiet (ms_pc s t)) eqn:Qt; cbn [andb] in *.
      * assert (H' : held k p t0 cs (set_pc s t q)).
        { apply held_pc_set; [exact H|]. destruct q as [|k1 q1| | |k1| | |]; try discriminate; [|exact I].
          intros ->. exact (Ns t q1 eq_refl). }
        destruct H' as [H1 H2 H3 H4]. constructor; try assumption. intros t'. specialize (H4 t').
        destruct (ms_pc (set_pc s t q) t') as [| | | | | | |k' r] eqn:P; try exact H4. intros Hk [Ct|(q' & [= <- <-] & _)]; [auto|].
        exfalso. cbn in P. unfold mupd in P. rewrite Nat.eqb_refl in P. subst q. discriminate.
      * destruct H as [H1 H2 H3 H4]. constructor; try assumption. intros t'. specialize (H4 t').
        destruct (ms_pc s t') as [| | | | | | |k' r] eqn:P; try exact H4. intros Hk [Ct|(q' & [= <- <-] & _)]; [auto|].
        rewrite P in Qt. discriminate.
    + rewrite andb_false_r in *. destruct H as [H1 H2 H3 H4]. constructor; try assumption. intros t'. specialize (H4 t').
      destruct (ms_pc s t') as [| | | | | | |k' r] eqn:P; try exact H4. intros Hk [Ct|(q' & [= <- <-] & Hq)]; [auto|congruence].
  - apply W1; [|discriminate]. pose proof (h_pc _ _ _ _ _ H t) as Pt. destruct (ms_pc s t) as [|k1 q1|k1 q1 n1|k1 q1|k1|k1 it1|k1 it1 n1|k1 r1]; try exact H.
    + apply held_pc_set; [exact H|exact Pt].
    + apply held_pc_set; [|exact I]. destruct H as [(it & M & Sp & L) H2 H3 H4]. constructor; try assumption. exists it. cbn.
      rewrite smap_set_other by congruence. auto.
    + destruct (h_map _ _ _ _ _ H) as (it & M & Sp & L).
      destruct (ms_map s k1) as [it1|] eqn:M1; apply held_pc_set; try exact H; intros ->; congruence.
    + apply held_pc_set; [exact H|]. intros E. split; [auto|exact (h_now _ _ _ _ _ H)].
    + apply held_pc_set; [|intros E _; destruct (Pt E) as [<- _]; reflexivity].
      destruct H as [(it & M & Sp & L) H2 H3 H4]. constructor; try assumption. cbn.
      destruct (bytes_eqb_spec k k1) as [<-|N].
      * destruct (Pt eq_refl) as [Sp1 L1]. rewrite smap_set_same. eexists. split; [reflexivity|]. cbn. auto.
      * rewrite smap_set_other by exact N. eauto.
  - apply W1; [|discriminate]. destruct H as [H1 H2 H3 H4]. constructor; try assumption. cbn. lia.
  - apply W1; [|discriminate]. destruct (ms_gc s) eqn:G; [exact H|]. destruct (ms_map s k') as [it'|] eqn:M'; [|exact H].
    destruct (_ && _) eqn:Ex; [|exact H]. apply andb_prop in Ex as [Ex1 Ex2]. apply Z.ltb_lt in Ex1, Ex2.
    destruct H as [(it & M & Sp & L) H2 H3 H4]. constructor; try assumption; cbn; [eauto|].
    intros [= ->]. rewrite M in M'. injection M' as <-. cbn in Ht. specialize (Ht Ex1). lia.
  - apply W1; [|discriminate]. destruct (ms_gc s) as [k'|] eqn:G; [|exact H]. destruct H as [(it & M & Sp & L) H2 H3 H4].
    constructor; try assumption; cbn; [|discriminate]. exists it. rewrite smap_set_other by congruence. auto.
Qed.
Lemma held_run ttl k p t0 tr' : forall cs s, held k p t0 cs s -> (forall t q, ~ In (MeCall t (MpStore k q)) tr') ->
  ((0 < ttl)%Z -> (ms_now (fold_left (mstep ttl) tr' s) - t0 <= ttl)%Z) ->
  held k p t0 (fun t => cs t \/ exists q, In (MeCall t q) tr' /\ is_call q = true) (fold_left (mstep ttl) tr' s).
Proof.
  induction tr' as [|e tr' IH]; intros cs s H Ns Ht.
  - cbn. destruct H as [H1 H2 H3 H4]. constructor; try assumption. intros t. specialize (H4 t).
    destruct (ms_pc s t); try exact H4. intros Hk [Ct|(q & [] & _)]. auto.
  - cbn [fold_left] in *. pose proof (mnow_mono ttl tr' (mstep ttl s e)) as Hm.
    assert (H' : held k p t0 (fun t => cs t \/ exists q, e = MeCall t q /\ is_call q = true) (mstep ttl s e)).
    { apply held_step; [exact H|intros t q ->; apply (Ns t q); left; reflexivity|]. intros Hp. specialize (Ht Hp). lia. }
    specialize (IH _ _ H' (fun t q I => Ns t q (or_intror I)) Ht).
    destruct IH as [H1 H2 H3 H4]. constructor; try assumption. intros t. specialize (H4 t).
    destruct (ms_pc (fold_left (mstep ttl) tr' (mstep ttl s e)) t); try exact H4. intros Hk [Ct|(q & [->|I] & Hq)]; apply H4; eauto 8.
Qed.
Lemma held_loads ttl tr k p t0 tr' t r : held k p t0 (fun _ => False) (mrun ttl tr) ->
  (forall u q, ~ In (MeCall u (MpStore k q)) tr') ->
  ((0 < ttl)%Z -> (ms_now (mrun ttl (tr ++ tr')) - t0 <= ttl)%Z) ->
  In (MeCall t (MpLoad k)) tr' -> ms_pc (mrun ttl (tr ++ tr')) t = MpLoaded k r -> r = Some p.
Proof.
  intros H Ns Ht I P. unfold mrun in *. rewrite fold_left_app in *.
  pose proof (h_pc _ _ _ _ _ (held_run ttl k p t0 tr' _ _ H Ns Ht) t) as X. rewrite P in X. apply X; [reflexivity|]. right. exists (MpLoad k). auto.
Qed.
Lemma now_of_store ttl tr t k p now : ms_pc (mrun ttl tr) t = MpStore2 k p now -> (now <= ms_now (mrun ttl tr))%Z
with now_of_load ttl tr t k it now : ms_pc (mrun ttl tr) t = MpLoad3 k it now -> (now <= ms_now (mrun ttl tr))%Z.
Proof.
  all: assert (X : forall t', match ms_pc (mrun ttl tr) t' with MpStore2 _ _ n | MpLoad3 _ _ n => (n <= ms_now (mrun ttl tr))%Z | _ => True end).
  1,3: clear now_of_store now_of_load; induction tr as [|e tr IH] using rev_ind; [intros; exact I|];
    unfold mrun in *; rewrite fold_left_app; cbn [fold_left]; set (s := fold_left (mstep ttl) tr minit) in *; clearbody s;
    assert (U : forall s', ms_now s' = ms_now s -> forall t1 q, (match q with MpStore2 _ _ n | MpLoad3 _ _ n => (n <= ms_now s)%Z | _ => True end) ->
      ms_pc s' = mupd (ms_pc s) t1 q -> forall t', match ms_pc s' t' with MpStore2 _ _ n | MpLoad3 _ _ n => (n <= ms_now s')%Z | _ => True end)
     by (intros s' -> t1 q Hq -> t'; unfold mupd; destruct (Nat.eqb t' t1); [exact Hq|apply IH]);
    destruct e as [t1 q|t1|d|k1|]; cbn [mstep];
    [destruct (quiet (ms_pc s t1)); cbn [andb]; [destruct (is_call q) eqn:Q|]; try exact IH;
       eapply U; [reflexivity| |reflexivity]; destruct q; try discriminate; exact I
    |destruct (ms_pc s t1) eqn:Pt; try exact IH; try (eapply U; [reflexivity| |reflexivity]; first [exact I|cbn; lia]);
       destruct (ms_map s k0); eapply U; try reflexivity; exact I
    |intros t'; specialize (IH t'); cbn; destruct (ms_pc s t'); auto; lia
    |destruct (ms_gc s), (ms_map s k1); try exact IH; destruct (_ && _); exact IH
    |destruct (ms_gc s); exact IH].
  - intros H. specialize (X t). rewrite H in X. exact X.
  - intros H. specialize (X t). rewrite H in X. exact X.
Qed.
Lemma store_then_loads ttl tr t k p now tr' u r : ms_pc (mrun ttl tr) t = MpStore2 k p now ->
  busy_free k (mrun ttl tr) t -> ms_gc (mrun ttl tr) <> Some k ->
  (forall v q, ~ In (MeCall v (MpStore k q)) tr') ->
  ((0 < ttl)%Z -> (ms_now (mrun ttl (tr ++ MeStep t :: tr')) - now <= ttl)%Z) ->
  In (MeCall u (MpLoad k)) tr' -> ms_pc (mrun ttl (tr ++ MeStep t :: tr')) u = MpLoaded k r -> r = Some p.
Proof.
  intros P B G Ns Ht I R. change (MeStep t :: tr') with ([MeStep t] ++ tr') in *. rewrite app_assoc in *.
  apply (held_loads ttl (tr ++ [MeStep t]) k p now tr' u r); try assumption.
  pose proof (now_of_store _ _ _ _ _ _ P) as Hn. unfold mrun in *. rewrite fold_left_app. cbn [fold_left mstep].
  set (s := fold_left (mstep ttl) tr minit) in *. rewrite P.
  constructor; cbn; try assumption.
  - rewrite smap_set_same. eexists. split; [reflexivity|]. cbn. lia || auto with zarith.
  - intros v. unfold mupd. destruct (Nat.eqb_spec v t); [exact Logic.I|]. specialize (B v n). unfold off in B. destruct (ms_pc s v); auto; try contradiction; try tauto.
Qed.
Lemma load_then_loads ttl tr t k it now tr' u r : ms_pc (mrun ttl tr) t = MpLoad3 k it now ->
  busy_free k (mrun ttl tr) t -> ms_gc (mrun ttl tr) <> Some k ->
  (forall v q, ~ In (MeCall v (MpStore k q)) tr') ->
  ((0 < ttl)%Z -> (ms_now (mrun ttl (tr ++ MeStep t :: tr')) - now <= ttl)%Z) ->
  In (MeCall u (MpLoad k)) tr' -> ms_pc (mrun ttl (tr ++ MeStep t :: tr')) u = MpLoaded k r -> r = Some (it_session it).
Proof.
  intros P B G Ns Ht I R. change (MeStep t :: tr') with ([MeStep t] ++ tr') in *. rewrite app_assoc in *.
  apply (held_loads ttl (tr ++ [MeStep t]) k (it_session it) now tr' u r); try assumption.
  pose proof (now_of_load _ _ _ _ _ _ P) as Hn. unfold mrun in *. rewrite fold_left_app. cbn [fold_left mstep].
  set (s := fold_left (mstep ttl) tr minit) in *. rewrite P.
  constructor; cbn; try assumption.
  - rewrite smap_set_same. eexists. split; [reflexivity|]. cbn. lia || auto with zarith.
  - intros v. unfold mupd. destruct (Nat.eqb_spec v t); [intros _ []|]. specialize (B v n). unfold off in B. destruct (ms_pc s v); auto; try contradiction; try tauto.
Qed.

(** ** C104 *)
Lemma be_enc_inj n a b : a < 256 ^ N.of_nat n -> b < 256 ^ N.of_nat n -> be_enc n a = be_enc n b -> a = b.
Proof. intros Ha Hb E. apply (f_equal be_dec) in E. rewrite !be_dec_enc_small in E; assumption. Qed.
Lemma request_ctr_inj id c ct r c' ct' r' : c < 2 ^ 64 -> c' < 2 ^ 64 ->
  enc_request (RqProcess id c ct r) = enc_request (RqProcess id c' ct' r') -> c = c'.
Proof.
  intros H H' E. cbn [enc_request] in E. unfold enc_process_req, enc_req_common in E.
  cbv zeta in E. cbn [new_process_request pr_common pr_reply pr_reserved pr_id pr_counter pr_size pr_msg app] in E.
  apply (f_equal (skipn 2)) in E. cbn [skipn] in E.
  apply (f_equal (skipn (length id))) in E. rewrite !skipn_app, !skipn_all, !Nat.sub_diag in E. cbn [skipn app] in E.
  apply (f_equal (firstn 8)) in E.
  assert (F : forall x y, firstn 8 (be_enc 8 x ++ y) = be_enc 8 x).
  { intros x y. rewrite firstn_app. assert (L : length (be_enc 8 x) = 8%nat) by apply be_enc_length.
    rewrite L. cbn [Nat.sub]. rewrite firstn_O, app_nil_r. rewrite <- L at 1. apply firstn_all. }
  rewrite !F in E. apply (be_enc_inj 8); assumption.
Qed.
Lemma in_window_accepted C W k s ns cs : kreachable C W k -> adds s (k_trace k) <= 2 ^ 64 ->
  NoDup ns -> Forall2 (request_at W k s) ns cs ->
  (forall before c after, cs = before ++ c :: after -> forall x, In x before -> x < c + 64) ->
  fst (checks new_window cs) = repeat true (length cs).
Proof.
  intros R Ha Hn F O.
  assert (S : forall n c, request_at W k s n c -> 0 < c /\ c < 2 ^ 64 /\ exists i b m, nth_error (k_trace k) n = Some (i, KWrite b m) /\ kevent k i (KAdd s c)).
  { intros n c (i & m & cl & p & ct & E & St & Es & Hc).
    destruct (kwrite_spec C W k R i _ m (nth_error_In _ _ E)) as (cl' & p' & c' & key & ct' & St' & _ & Nz & Hc' & Hs & _ & Eb).
    assert (cl' = cl) as ->. { destruct St as (v & V1 & V2 & _), St' as (v' & V1' & V2' & _). congruence. }
    rewrite Es in *. apply request_ctr_inj in Eb; [|assumption|assumption]. subst c'.
    destruct (kseal_spec C W k R _ _ _ _ _ _ _ Hs) as (_ & _ & _ & _ & A & _). split; [lia|]. split; [exact Hc|]. eauto 6. }
  assert (Inj : forall n n' c, request_at W k s n c -> request_at W k s n' c -> n = n').
  { intros n n' c H H'. destruct (S _ _ H) as (P & _ & i & b & m & E & A), (S _ _ H') as (_ & _ & i' & b' & m' & E' & A').
    assert (i' = i) as ->. { eapply (add_owner C W k R s c); try eassumption. lia. }
    refine (konce C W k R is_kwrite _ n n' i _ _ E E' eq_refl eq_refl).
    intros cl o h x Ok Fx. destruct x; try discriminate. destruct Ok as (? & ? & ? & ? & _ & _ & _ & X). exact X. }
  apply reordering_accepted; [|clear O|exact O].
  - clear - F S. induction F as [|n c ns cs H _ IH]; [constructor|]. constructor; [|exact IH].
    destruct (S _ _ H) as (P & Q & _). split; assumption.
  - induction F as [|n c ns cs H F IH]; [constructor|]. inversion Hn as [|? ? Hni Hn']; subst. constructor; [|auto].
    intros I. apply Hni. clear - F I H Inj. induction F as [|n' c' ns cs H' _ IH]; [destruct I|].
    destruct I as [->|I]; [left; eapply Inj; eassumption|right; auto].
Qed.
