(** What the attacker of [Dolev] can and cannot do. *)
From Verif Require Import Bytes BytesProofs Parser Crypto Wire WireExtra Dolev SpecDolev.

Lemma dh_comm i j : dh i j = dh j i.
Proof. unfold dh. rewrite Nat.min_comm, Nat.max_comm. reflexivity. Qed.
Lemma dh_inj i j a b : dh i j = dh a b -> (i = a /\ j = b) \/ (i = b /\ j = a).
Proof. unfold dh. intros [= H1 H2]. lia. Qed.
Lemma sealed_inj d1 i1 j1 n1 m1 d2 i2 j2 n2 m2 : n1 < two64 -> n2 < two64 ->
  sealed d1 i1 j1 n1 m1 = sealed d2 i2 j2 n2 m2 -> dh i1 j1 = dh i2 j2 /\ d1 = d2 /\ n1 = n2 /\ m1 = m2.
Proof.
  intros H1 H2 X. unfold sealed in X.
  assert (A : TKdf (dh i1 j1) = TKdf (dh i2 j2)) by congruence.
  assert (B : gcm_nonce d1 n1 = gcm_nonce d2 n2) by congruence.
  apply gcm_nonce_inj in B as [-> ->]; [|assumption..]. split; [congruence|]. repeat split; congruence.
Qed.

(** ** An upper bound of the attacker's knowledge *)
Definition bad (tr : list event) (i j : nat) : Prop := In (EAtt i) tr \/ In (EAtt j) tr.
Definition exposes (tr : list event) (e : event) (k : nat) : Prop :=
  match e with
  | EWrite _ i j _ m => m = TMsg k /\ bad tr i j
  | EHandle _ _ _ i j _ _ r => r = Some (TMsg k) /\ bad tr i j
  | _ => False
  end.
Fixpoint pub (tr : list event) (t : term) : Prop :=
  match t with
  | TData _ | TPoint _ _ | TVerKey _ => True
  | TMsg k => exists e, In e tr /\ exposes tr e k
  | TScalar i => In (EAtt i) tr
  | TDh i j => bad tr i j
  | TSignKey s => In (ELeak s) tr
  | TSig s t => pub tr t /\ (In (ELeak s) tr \/ exists e, In e tr /\ In (TSig s t) (shows e))
  | TKdf t => pub tr t
  | TAead k n p => pub tr n /\ ((pub tr k /\ pub tr p) \/ exists e, In e tr /\ In (TAead k n p) (shows e))
  | TPair a b => pub tr a /\ pub tr b
  end.

Lemma bad_dh tr i j : pub tr (dh i j) <-> bad tr i j.
Proof.
  unfold dh. cbn [pub]. destruct (Nat.le_ge_cases i j) as [H|H].
  - rewrite Nat.min_l, Nat.max_r by exact H. reflexivity.
  - rewrite Nat.min_r, Nat.max_l by exact H. unfold bad. tauto.
Qed.

Lemma bad_mono tr tr' i j : incl tr tr' -> bad tr i j -> bad tr' i j.
Proof. intros H [X|X]; [left|right]; apply H, X. Qed.
Lemma exposes_mono tr tr' e k : incl tr tr' -> exposes tr e k -> exposes tr' e k.
Proof. intros H. destruct e; cbn; auto; intros [X Y]; (split; [exact X|]); apply (bad_mono tr); assumption. Qed.
Lemma pub_mono tr tr' t : incl tr tr' -> pub tr t -> pub tr' t.
Proof.
  intros H. induction t; cbn [pub]; auto.
  - intros (e & X & Y). exists e. split; [apply H, X|apply (exposes_mono tr); assumption].
  - apply bad_mono, H.
  - intros [A [B|(e & B & D)]]; (split; [auto|]); [left; apply H, B|right; exists e; split; [apply H, B|exact D]].
  - intros [A [[B D]|(e & B & D)]]; (split; [auto|]); [left; auto|right; exists e; split; [apply H, B|exact D]].
  - intros [A B]. auto.
Qed.
Lemma know_mono tr tr' t : incl tr tr' -> know tr t -> know tr' t.
Proof.
  intros H K. induction K; try solve [econstructor; eauto].
Qed.

(** What parties put into ciphertexts was theirs or public. *)
Definition contents (tr : list event) : Prop := forall e k n p, In e tr -> In (TAead k n p) (shows e) ->
  (exists x, p = TMsg x) \/ pub tr p.
Lemma shows_aead e k n p : In (TAead k n p) (shows e) ->
  (exists c i j q, e = EWrite c i j q p /\ TAead k n p = sealed dir_c2s i j q p) \/
  (exists s h id i j q m, e = EHandle s h id i j q m (Some p) /\ TAead k n p = sealed dir_s2c i j q p).
Proof.
  intros H. destruct e as [i|s|c i id s k'|s host id i v j ok|c i j w|c i j q m|s host id i j q m r|c i j q m]; cbn [shows] in H;
    try (destruct H as [H|H]; [discriminate|destruct H; fail]); try destruct H.
  - discriminate.
  - destruct H as [H|[]]; discriminate.
  - destruct ok; [|destruct H]. destruct H as [H|[H|[]]]; discriminate.
  - left. exists c, i, j, q. unfold sealed in *. split; congruence.
  - destruct H.
  - destruct r as [r|]; [|destruct H]. destruct H as [H|[]]. right. exists s, host, id, i, j, q, m. unfold sealed in *. split; congruence.
Qed.

Lemma know_pub_of tr : contents tr -> forall t, know tr t -> pub tr t.
Proof.
  intros HC t K. induction K as [e t He Ht|b|s|a b _ A _ B|a b _ A|a b _ A|i v _ A|i v w _ A|i j v _ A _ _|t _ A|s t _ A _ B|s t _ A|k n p _ A _ B _ D|k n p _ A _ B];
    try exact I; cbn [pub] in *; try tauto.
  - destruct e as [i|s|c i id s k|s host id i v j ok|c i j w|c i j n m|s host id i j n m r|c i j n m]; cbn [shows] in Ht.
    + destruct Ht as [<-|[]]. exact He.
    + destruct Ht as [<-|[]]. exact He.
    + destruct Ht as [<-|[<-|[]]]; exact I.
    + destruct ok; [|destruct Ht]. destruct Ht as [<-|[<-|[]]]; [exact I|]. split; [cbn; tauto|]. right.
      exists (ESetup s host id i v j true). split; [exact He|]. right; left; reflexivity.
    + destruct Ht.
    + destruct Ht as [<-|[]]. split; [exact I|]. right. exists (EWrite c i j n m). split; [exact He|]. left; reflexivity.
    + destruct r as [r|]; [|destruct Ht]. destruct Ht as [<-|[]]. split; [exact I|]. right.
      exists (EHandle s host id i j n m (Some r)). split; [exact He|]. left; reflexivity.
    + destruct Ht.
  - apply bad_dh. left. exact A.
  - destruct A as [_ [[_ A]|(e & He & Ht)]]; [exact A|]. destruct (HC e k n p He Ht) as [(x & ->)|X]; [|exact X].
    cbn [pub]. exists e. split; [exact He|].
    destruct (shows_aead e k n _ Ht) as [(c & i & j & q & -> & S)|(s & h & id & i & j & q & m & -> & S)];
      cbn [exposes]; (split; [reflexivity|]); apply bad_dh; unfold sealed in S; injection S as -> _; exact B.
Qed.

Lemma dy_contents tr : dy tr -> contents tr.
Proof.
  assert (Old : forall e0 tr, contents tr -> (forall k n p, In (TAead k n p) (shows e0) -> (exists x, p = TMsg x) \/ pub (e0 :: tr) p) ->
    contents (e0 :: tr)).
  { intros e0 t HC H e k n p [<-|He] Hs; [apply (H k n p Hs)|]. destruct (HC e k n p He Hs) as [X|X]; [left; exact X|right].
    revert X. apply pub_mono. intros z Hz. right; exact Hz. }
  assert (App : forall e0 t m, contents t -> app_message t m -> (exists x, m = TMsg x) \/ pub (e0 :: t) m).
  { intros e0 t m HC [X|X]; [left; exact X|right]. apply (pub_mono t); [intros z Hz; right; exact Hz|]. apply know_pub_of; assumption. }
  induction 1; try (intros e0 k0 n0 p0 []; fail); apply Old; auto; cbn [shows]; intros k0 n0 p0 Hs.
  all: try (destruct Hs; fail).
  all: try (destruct Hs as [Hs|[]]; discriminate).
  - destruct Hs as [Hs|[Hs|[]]]; discriminate.
  - destruct ok; [|destruct Hs]. destruct Hs as [Hs|[Hs|[]]]; discriminate.
  - destruct Hs as [Hs|[]]. unfold sealed in Hs. injection Hs as _ _ <-. apply App; auto.
  - destruct r as [r|]; [|destruct Hs]. destruct Hs as [Hs|[]]. unfold sealed in Hs. injection Hs as _ _ <-. apply App; auto.
Qed.
Lemma know_pub tr t : dy tr -> know tr t -> pub tr t.
Proof. intros D. apply know_pub_of, dy_contents, D. Qed.

(** ** Every private key is made once *)
Lemma dy_app post : forall pre, dy (post ++ pre) -> dy pre.
Proof. induction post as [|e post IH]; intros pre D; [exact D|]. apply IH. inversion D; assumption. Qed.
Lemma made_once tr : dy tr -> forall e1 e2 i, In e1 tr -> In e2 tr -> makes e1 i -> makes e2 i -> e1 = e2.
Proof.
  assert (Step : forall e0 t, (forall i, makes e0 i -> fresh t i) ->
    (forall e1 e2 i, In e1 t -> In e2 t -> makes e1 i -> makes e2 i -> e1 = e2) ->
    forall e1 e2 i, In e1 (e0 :: t) -> In e2 (e0 :: t) -> makes e1 i -> makes e2 i -> e1 = e2).
  { intros e0 t F IH e1 e2 i [<-|H1] [<-|H2] M1 M2; auto.
    - destruct (F i M1 e2 H2 M2).
    - destruct (F i M2 e1 H1 M1).
    - apply (IH e1 e2 i); assumption. }
  induction 1; try (intros e1 e2 i0 []; fail); apply Step; auto; cbn [makes]; intros i0 M; try (destruct M; fail); subst; assumption.
Qed.

(** ** Handshakes *)
Lemma accept_inv tr post c i j w pre id s k : dy tr -> tr = post ++ EAccept c i j w :: pre -> In (EDial c i id s k) pre ->
  know pre (TSig k (transcript (TPoint i 0) (TPoint j w) (TData id))) /\ dy pre.
Proof.
  intros D -> Hd. apply dy_app in D. inversion D as [| | | | |tr' c' i' id' s' k' j' w' D' Hd' _ _ Hs| | |]; subst.
  pose proof (made_once pre D' _ _ i Hd Hd' eq_refl eq_refl) as Q. injection Q as -> -> ->. auto.
Qed.
Lemma shows_sig e k t : In (TSig k t) (shows e) -> exists host id i v j, e = ESetup k host id i v j true /\
  t = transcript (TPoint i v) (TPoint j 0) (TData id).
Proof.
  intros H. destruct e as [i|s|c i id s k'|s host id i v j ok|c i j w|c i j q m|s host id i j q m r|c i j q m]; cbn [shows] in H;
    try (destruct H; fail); try (destruct H as [H|[]]; discriminate).
  - destruct H as [H|[H|[]]]; discriminate.
  - destruct ok; [|destruct H]. destruct H as [H|[H|[]]]; [discriminate|]. injection H as -> <-. eauto 8.
  - destruct r; [|destruct H]. destruct H as [H|[]]; discriminate.
Qed.
Lemma accept_setup tr post c i j w pre id s k : dy tr -> tr = post ++ EAccept c i j w :: pre -> In (EDial c i id s k) pre ->
  ~ In (ELeak k) pre -> exists host, In (ESetup k host id i 0 j true) pre /\ w = 0%nat.
Proof.
  intros D Et Hd Hl. destruct (accept_inv _ _ _ _ _ _ _ _ _ _ D Et Hd) as [Hs D'].
  apply know_pub in Hs; [|exact D']. destruct Hs as [_ [X|(e & He & X)]]; [contradiction|].
  apply shows_sig in X as (host & id' & i' & v & j' & -> & X). unfold transcript in X. injection X as -> <- -> -> ->. eauto.
Qed.

Section trusted.
Variables (tr : list event) (c i j s : nat) (id : bytes).
Hypothesis D : dy tr.
Hypothesis T : trusted tr c i j s id.

Lemma trusted_facts : In (EDial c i id s s) tr /\ exists host, In (ESetup s host id i 0 j true) tr.
Proof.
  destruct T as (post & w & pre & Et & Hd & Hl). destruct (accept_setup _ _ _ _ _ _ _ _ _ _ D Et Hd Hl) as (host & Hs & _).
  split; [|exists host]; rewrite Et; apply in_or_app; right; right; assumption.
Qed.
Lemma trusted_good : ~ bad tr i j.
Proof.
  destruct trusted_facts as [Hd (host & Hs)]. intros [X|X].
  - pose proof (made_once tr D _ _ i Hd X eq_refl eq_refl). discriminate.
  - pose proof (made_once tr D _ _ j Hs X eq_refl eq_refl). discriminate.
Qed.
Lemma secret_safe : ~ know tr (dh i j) /\ ~ know tr (TKdf (dh i j)).
Proof.
  split; intros K; apply know_pub in K; try exact D; apply trusted_good; apply (proj1 (bad_dh tr i j)); exact K.
Qed.
Lemma handshake_agrees : exists host, before tr (ESetup s host id i 0 j true) (EAccept c i j 0) /\
  forall c' i' s' id', trusted tr c' i' j s' id' -> c' = c /\ i' = i /\ s' = s /\ id' = id.
Proof.
  destruct T as (post & w & pre & Et & Hd & Hl). destruct (accept_setup _ _ _ _ _ _ _ _ _ _ D Et Hd Hl) as (host & Hs & ->).
  exists host. split; [exists post, pre; auto|]. intros c' i' s' id' (post' & w' & pre' & Et' & Hd' & Hl').
  destruct (accept_setup _ _ _ _ _ _ _ _ _ _ D Et' Hd' Hl') as (host' & Hs' & ->).
  assert (I1 : In (ESetup s host id i 0 j true) tr) by (rewrite Et; apply in_or_app; right; right; exact Hs).
  assert (I2 : In (ESetup s' host' id' i' 0 j true) tr) by (rewrite Et'; apply in_or_app; right; right; exact Hs').
  pose proof (made_once tr D _ _ j I1 I2 eq_refl eq_refl) as Q. injection Q as <- <- <- <-.
  assert (J1 : In (EDial c i id s s) tr) by (rewrite Et; apply in_or_app; right; right; exact Hd).
  assert (J2 : In (EDial c' i id s s) tr) by (rewrite Et'; apply in_or_app; right; right; exact Hd').
  pose proof (made_once tr D _ _ i J1 J2 eq_refl eq_refl) as Q. injection Q as <-. auto.
Qed.
End trusted.

(** ** Messages *)
(** The scalars of a Write are those of its client's handshake, those of a handler's
    call those of its session. *)
Lemma write_accept tr c i j n m : dy tr -> In (EWrite c i j n m) tr -> n < two64 /\ exists w, In (EAccept c i j w) tr.
Proof.
  intros D. induction D; intros HH; try (destruct HH; fail);
    (destruct HH as [HH|HH]; [try discriminate HH|destruct (IHD HH) as (A & w0 & B); split; [exact A|exists w0; right; exact B]]).
  injection HH as -> -> -> -> ->. split; [assumption|]. exists w. right. assumption.
Qed.
Lemma handle_setup tr s host id i j n m r : dy tr -> In (EHandle s host id i j n m r) tr ->
  n < two64 /\ exists v ok, In (ESetup s host id i v j ok) tr.
Proof.
  intros D. induction D; intros HH; try (destruct HH; fail);
    (destruct HH as [HH|HH]; [try discriminate HH|destruct (IHD HH) as (A & v0 & w0 & B); split; [exact A|exists v0, w0; right; exact B]]).
  injection HH as -> -> -> -> -> -> -> ->. split; [assumption|]. exists v, ok. right. assumption.
Qed.
Lemma accept_dial tr c i j w : dy tr -> In (EAccept c i j w) tr -> exists id s k, In (EDial c i id s k) tr.
Proof.
  intros D. induction D; intros HH; try (destruct HH; fail);
    (destruct HH as [HH|HH]; [try discriminate HH|destruct (IHD HH) as (a & b & d & B); exists a, b, d; right; exact B]).
  injection HH as -> -> -> ->. eauto using in_cons.
Qed.
Lemma trusted_incl post tr c i j s id : trusted tr c i j s id -> trusted (post ++ tr) c i j s id.
Proof. intros (p & w & pre & -> & H). exists (post ++ p), w, pre. rewrite app_assoc. auto. Qed.


(** Where a ciphertext the attacker has comes from. *)
Lemma sealed_source tr d i j n m : dy tr -> n < two64 -> know tr (sealed d i j n m) ->
  (bad tr i j /\ pub tr m) \/
  (d = dir_c2s /\ exists c a b, In (EWrite c a b n m) tr /\ dh a b = dh i j) \/
  (d = dir_s2c /\ exists s h id a b q, In (EHandle s h id a b n q (Some m)) tr /\ dh a b = dh i j).
Proof.
  intros D Hn K. apply know_pub in K; [|exact D]. unfold sealed in K.
  change (True /\ ((pub tr (dh i j) /\ pub tr m) \/ exists e, In e tr /\ In (sealed d i j n m) (shows e))) in K.
  destruct K as [_ [[A B]|(e & He & Hs)]]; [left; split; [apply bad_dh, A|exact B]|right].
  destruct (shows_aead e _ _ _ Hs) as [(c & a & b & q & -> & S)|(s & h & id & a & b & q & m0 & -> & S)].
  - destruct (write_accept _ _ _ _ _ _ D He) as [Hq _].
    apply (sealed_inj d i j n m) in S as (E1 & E2 & <- & _); [|assumption..]. left. split; [exact E2|]. eauto 6.
  - destruct (handle_setup _ _ _ _ _ _ _ _ _ D He) as [Hq _].
    apply (sealed_inj d i j n m) in S as (E1 & E2 & <- & _); [|assumption..]. right. split; [exact E2|]. eauto 10.
Qed.
Lemma dirs_differ : dir_c2s <> dir_s2c.
Proof. discriminate. Qed.

Lemma handle_inv tr post pre s h id i j n m r : dy tr -> tr = post ++ EHandle s h id i j n m r :: pre ->
  dy pre /\ n < two64 /\ know pre (sealed dir_c2s i j n m) /\ (exists v ok, In (ESetup s h id i v j ok) pre) /\
  (forall s' h' id' i' m' r', ~ In (EHandle s' h' id' i' j n m' r') pre).
Proof.
  intros D ->. apply dy_app in D. inversion D; subst. repeat (split; [solve [eauto]|]). assumption.
Qed.

Section auth.
Variables (tr : list event) (c i j s : nat) (id : bytes).
Hypothesis D : dy tr.
Hypothesis T : trusted tr c i j s id.

Lemma request_genuine post pre s' h id' n m r : tr = post ++ EHandle s' h id' i j n m r :: pre ->
  s' = s /\ id' = id /\ In (EWrite c i j n m) pre.
Proof.
  intros E. destruct (handle_inv _ _ _ _ _ _ _ _ _ _ _ D E) as (Dp & Hn & K & (v & ok & Hs) & _).
  destruct (trusted_facts _ _ _ _ _ _ D T) as [Hd (host & Hss)].
  assert (I : incl pre tr) by (rewrite E; intros z Hz; apply in_or_app; right; right; exact Hz).
  pose proof (made_once tr D _ _ j Hss (I _ Hs) eq_refl eq_refl) as Q. injection Q as <- _ <- _ _.
  split; [reflexivity|]. split; [reflexivity|].
  destruct (sealed_source _ _ _ _ _ _ Dp Hn K) as [[X _]|[(_ & c' & a & b & W & Q)|(X & _)]].
  - destruct (trusted_good _ _ _ _ _ _ D T). apply (bad_mono pre); assumption.
  - destruct (write_accept _ _ _ _ _ _ Dp W) as (_ & w & A). destruct (accept_dial _ _ _ _ _ Dp A) as (id' & s' & k & Hd').
    apply dh_inj in Q as [[-> ->]|[-> ->]].
    + pose proof (made_once tr D _ _ i Hd (I _ Hd') eq_refl eq_refl) as Q. injection Q as <- _ _ _. exact W.
    + pose proof (made_once tr D _ _ j Hss (I _ Hd') eq_refl eq_refl) as Q. discriminate.
  - destruct (dirs_differ X).
Qed.

Lemma read_inv post pre n r : tr = post ++ ERead c i j n r :: pre ->
  dy pre /\ n < two64 /\ know pre (sealed dir_s2c i j n r).
Proof.
  intros E. assert (D' := D). rewrite E in D'. apply dy_app in D'. inversion D'; subst. split; [assumption|].
  split; [|assumption]. eapply write_accept; eassumption.
Qed.

Lemma answer_genuine post pre n r : tr = post ++ ERead c i j n r :: pre ->
  exists h m, In (EHandle s h id i j n m (Some r)) pre /\ before pre (EWrite c i j n m) (EHandle s h id i j n m (Some r)).
Proof.
  intros E. destruct (read_inv _ _ _ _ E) as (Dp & Hn & K).
  destruct (trusted_facts _ _ _ _ _ _ D T) as [Hd (host & Hss)].
  assert (I : incl pre tr) by (rewrite E; intros z Hz; apply in_or_app; right; right; exact Hz).
  destruct (sealed_source _ _ _ _ _ _ Dp Hn K) as [[X _]|[(X & _)|(_ & s' & h & id' & a & b & q & H & Q)]].
  - destruct (trusted_good _ _ _ _ _ _ D T). apply (bad_mono pre); assumption.
  - destruct dirs_differ. symmetry. exact X.
  - destruct (handle_setup _ _ _ _ _ _ _ _ _ Dp H) as (_ & v & ok & Hs).
    assert (Q' : a = i /\ b = j).
    { apply dh_inj in Q as [Q|[-> ->]]; [exact Q|].
      pose proof (made_once tr D _ _ i Hd (I _ Hs) eq_refl eq_refl) as Q. discriminate. }
    destruct Q' as [-> ->]. destruct (in_split _ _ H) as (p1 & p2 & Ep).
    assert (E' : tr = (post ++ ERead c i j n r :: p1) ++ EHandle s' h id' i j n q (Some r) :: p2).
    { rewrite E, Ep, <- app_assoc. reflexivity. }
    destruct (request_genuine _ _ _ _ _ _ _ _ E') as (-> & -> & W).
    exists h, q. split; [exact H|]. exists p1, p2. auto.
Qed.
End auth.

Lemma handled_once tr p1 p2 s h id i j n m r : dy tr -> tr = p1 ++ EHandle s h id i j n m r :: p2 ->
  forall s' h' id' i' m' r', ~ In (EHandle s' h' id' i' j n m' r') (p1 ++ p2).
Proof.
  intros D E s' h' id' i' m' r' H. apply in_app_or in H as [H|H].
  - destruct (in_split _ _ H) as (q1 & q2 & ->). rewrite <- app_assoc in E. cbn [app] in E.
    destruct (handle_inv _ _ _ _ _ _ _ _ _ _ _ D E) as (_ & _ & _ & _ & X).
    eapply X. apply in_or_app. right. left. reflexivity.
  - destruct (handle_inv _ _ _ _ _ _ _ _ _ _ _ D E) as (_ & _ & _ & _ & X). eapply X. exact H.
Qed.

(** ** Secrecy of messages *)
Lemma unexposed tr x : dy tr -> (forall e, In e tr -> ~ exposes tr e x) -> ~ know tr (TMsg x).
Proof. intros D H K. apply know_pub in K; [|exact D]. destruct K as (e & He & X). exact (H e He X). Qed.

Lemma message_safe tr x : dy tr ->
  (forall c i j n, In (EWrite c i j n (TMsg x)) tr -> exists s id, trusted tr c i j s id) ->
  (forall s h id i j n m, In (EHandle s h id i j n m (Some (TMsg x))) tr -> exists c s' id', trusted tr c i j s' id') ->
  ~ know tr (TMsg x).
Proof.
  intros D HW HH. apply unexposed; [exact D|]. intros e He X.
  destruct e as [a|a|c i id s k'|s host id i v j ok|c i j w|c i j q m|s host id i j q m r|c i j q m]; try (destruct X; fail).
  - cbn [exposes] in X. destruct X as [-> X]. destruct (HW _ _ _ _ He) as (s & id & T). exact (trusted_good _ _ _ _ _ _ D T X).
  - cbn [exposes] in X. destruct X as [-> X]. destruct (HH _ _ _ _ _ _ _ He) as (c & s' & id' & T). exact (trusted_good _ _ _ _ _ _ D T X).
Qed.

Lemma guarded_safe tr x y : dy tr ->
  (forall c i j n m, In (EWrite c i j n m) tr -> m = TMsg x \/ m = TMsg y -> exists s id, trusted tr c i j s id) ->
  (forall s h id i j n m, ~ In (EHandle s h id i j n m (Some (TMsg y))) tr) ->
  (forall s h id i j n m, In (EHandle s h id i j n m (Some (TMsg x))) tr -> m = TMsg y) ->
  ~ know tr (TMsg y) /\ ~ know tr (TMsg x).
Proof.
  intros D HW Hy Hx.
  assert (Ky : ~ know tr (TMsg y)).
  { apply message_safe; [exact D| |].
    - intros c i j n H. apply (HW _ _ _ _ _ H). right; reflexivity.
    - intros s h id i j n m H. destruct (Hy _ _ _ _ _ _ _ H). }
  split; [exact Ky|]. apply unexposed; [exact D|]. intros e He X.
  destruct e as [a|a|c i id s k'|s host id i v j ok|c i j w|c i j q m|s host id i j q m r|c i j q m]; try (destruct X; fail).
  - cbn [exposes] in X. destruct X as [-> X]. destruct (HW _ _ _ _ _ He (or_introl eq_refl)) as (s & id & T). exact (trusted_good _ _ _ _ _ _ D T X).
  - cbn [exposes] in X. destruct X as [-> X]. pose proof (Hx _ _ _ _ _ _ _ He) as ->.
    destruct (in_split _ _ He) as (p1 & p2 & Ep). destruct (handle_inv _ _ _ _ _ _ _ _ _ _ _ D Ep) as (Dp & Hn & K & _).
    assert (I : incl p2 tr) by (rewrite Ep; intros z Hz; apply in_or_app; right; right; exact Hz).
    destruct (sealed_source _ _ _ _ _ _ Dp Hn K) as [[_ (e & He' & X')]|[(_ & c' & a & b & W & Q)|(X' & _)]].
    + apply I in He'. apply (exposes_mono p2 tr) in X'; [|exact I].
      destruct e as [a|a|c1 i1 id1 s1 k'|s1 host1 id1 i1 v j1 ok|c1 i1 j1 w|c1 i1 j1 q1 m1|s1 host1 id1 i1 j1 q1 m1 r1|c1 i1 j1 q1 m1]; try (destruct X'; fail).
      * cbn [exposes] in X'. destruct X' as [-> X']. destruct (HW _ _ _ _ _ He' (or_intror eq_refl)) as (s2 & id2 & T).
        exact (trusted_good _ _ _ _ _ _ D T X').
      * cbn [exposes] in X'. destruct X' as [-> _]. exact (Hy _ _ _ _ _ _ _ He').
    + destruct (HW _ _ _ _ _ (I _ W) (or_intror eq_refl)) as (s2 & id2 & T).
      apply (trusted_good _ _ _ _ _ _ D T). apply dh_inj in Q as [[-> ->]|[-> ->]]; [exact X|].
      destruct X as [X|X]; [right|left]; exact X.
    + destruct (dirs_differ X').
Qed.

(** ** Nonces *)
Lemma write_once tr : dy tr -> forall c i j i' j' n m m', In (EWrite c i j n m) tr -> In (EWrite c i' j' n m') tr -> m = m'.
Proof.
  intros D c i j i' j' n m m'. induction D; intros X1 X2; try (destruct X1; fail);
    (destruct X1 as [X1|X1]; [try discriminate X1|]); (destruct X2 as [X2|X2]; [try discriminate X2|]); try solve [apply IHD; assumption].
  - congruence.
  - injection X1 as -> -> -> -> ->. match goal with F : forall _ _ _, ~ In (EWrite _ _ _ _ _) _ |- _ => destruct (F _ _ _ X2) end.
  - injection X2 as -> -> -> -> ->. match goal with F : forall _ _ _, ~ In (EWrite _ _ _ _ _) _ |- _ => destruct (F _ _ _ X1) end.
Qed.
Lemma handle_once tr : dy tr -> forall s h id i s' h' id' i' j n q m q' m',
  In (EHandle s h id i j n q m) tr -> In (EHandle s' h' id' i' j n q' m') tr -> m = m'.
Proof.
  intros D s h id i s' h' id' i' j n q m q' m' H1 H2. destruct (in_split _ _ H1) as (p1 & p2 & E).
  rewrite E in H2. apply in_app_or in H2 as [H2|[H2|H2]]; [|congruence|].
  - destruct (handled_once _ _ _ _ _ _ _ _ _ _ _ D E s' h' id' i' q' m'). apply in_or_app. left; exact H2.
  - destruct (handled_once _ _ _ _ _ _ _ _ _ _ _ D E s' h' id' i' q' m'). apply in_or_app. right; exact H2.
Qed.
Lemma data_inj a b : TData a = TData b -> a = b.
Proof. congruence. Qed.
Section nonces.
Variables (tr : list event) (c i j s : nat) (id : bytes).
Hypothesis D : dy tr.
Hypothesis T : trusted tr c i j s id.

Lemma write_owner c' a b n m : In (EWrite c' a b n m) tr -> dh a b = dh i j -> c' = c /\ a = i /\ b = j.
Proof.
  intros W Q. destruct (trusted_facts _ _ _ _ _ _ D T) as [Hd (host & Hss)].
  destruct (write_accept _ _ _ _ _ _ D W) as (_ & w & A). destruct (accept_dial _ _ _ _ _ D A) as (id' & s' & k & Hd').
  apply dh_inj in Q as [[-> ->]|[-> ->]].
  - pose proof (made_once tr D _ _ i Hd Hd' eq_refl eq_refl) as Q. injection Q as <- _ _ _. auto.
  - pose proof (made_once tr D _ _ j Hss Hd' eq_refl eq_refl) as Q. discriminate.
Qed.
Lemma handle_owner s' h id' a b n m r : In (EHandle s' h id' a b n m r) tr -> dh a b = dh i j -> a = i /\ b = j.
Proof.
  intros H Q. destruct (trusted_facts _ _ _ _ _ _ D T) as [Hd (host & Hss)].
  destruct (handle_setup _ _ _ _ _ _ _ _ _ D H) as (_ & v & ok & Hs).
  apply dh_inj in Q as [Q|[-> ->]]; [exact Q|].
  pose proof (made_once tr D _ _ i Hd Hs eq_refl eq_refl) as Q. discriminate.
Qed.
Lemma nonce_once n p1 p2 : know tr (TAead (TKdf (dh i j)) n p1) -> know tr (TAead (TKdf (dh i j)) n p2) -> p1 = p2.
Proof.
  assert (Src : forall p, know tr (TAead (TKdf (dh i j)) n p) -> exists q, q < two64 /\
    ((n = TData (gcm_nonce dir_c2s q) /\ In (EWrite c i j q p) tr) \/
     (n = TData (gcm_nonce dir_s2c q) /\ exists s' h id' m, In (EHandle s' h id' i j q m (Some p)) tr))).
  { intros p K. apply know_pub in K; [|exact D].
    change (pub tr n /\ ((pub tr (dh i j) /\ pub tr p) \/ exists e, In e tr /\ In (TAead (TKdf (dh i j)) n p) (shows e))) in K.
    destruct K as [_ [[A _]|(e & He & Hs)]]; [destruct (trusted_good _ _ _ _ _ _ D T); apply bad_dh, A|].
    destruct (shows_aead e _ _ _ Hs) as [(c' & a & b & q & -> & S)|(s' & h & id' & a & b & q & m0 & -> & S)];
      unfold sealed in S; assert (Q : dh a b = dh i j) by congruence; assert (N : n = TData _) by (injection S; intros; eassumption);
      exists q.
    - destruct (write_accept _ _ _ _ _ _ D He) as [Hq _]. destruct (write_owner _ _ _ _ _ He Q) as (-> & -> & ->). auto.
    - destruct (handle_setup _ _ _ _ _ _ _ _ _ D He) as [Hq _]. destruct (handle_owner _ _ _ _ _ _ _ _ He Q) as (-> & ->).
      split; [exact Hq|]. right. split; [exact N|]. eauto. }
  intros K1 K2. destruct (Src _ K1) as (q1 & B1 & H1). destruct (Src _ K2) as (q2 & B2 & H2).
  destruct H1 as [[N1 W1]|[N1 (s1 & h1 & id1 & m1 & W1)]], H2 as [[N2 W2]|[N2 (s2 & h2 & id2 & m2 & W2)]]; rewrite N1 in N2;
    apply data_inj, gcm_nonce_inj in N2 as [N2 <-]; try assumption; try (destruct dirs_differ; congruence).
  - eapply write_once; eassumption.
  - assert (X : Some p1 = Some p2) by (eapply handle_once; eassumption). congruence.
Qed.
End nonces.
