(** Connections whose sessions are disjoint do not influence one another. *)
From Verif Require Import Bytes BytesProofs Parser Crypto Kdf Wire Replay Server ServerSeq MultiConn SpecMulti.

(** Programs that are the same up to the identity of sessions. *)
Section Eqv.
Variable Pk : bytes -> Prop.
Variable h : option bytes.

Definition plain {R} (e : seff R) : bool :=
  match e with
  | SCopy _ | SAlloc _ | SWrite _ | SGenKey | SSign _ _ | SFetchKey | SQuit => true
  | _ => false
  end.

Definition prel := nat -> nat -> Prop.
Definition sub (f g : prel) : Prop := forall a b, f a b -> g a b.

Inductive eqv {A} : prel -> sprog A -> sprog A -> Prop :=
| eqv_ret (f : prel) a : eqv f (SRet a) (SRet a)
| eqv_panic (f : prel) : eqv f SPanic SPanic
| eqv_read (f : prel) n k k' :
    (forall r : perr + bytes, (forall b, r = inr b -> lenN b = n) -> eqv f (k r) (k' r)) ->
    eqv f (SDo (SRead n) k) (SDo (SRead n) k')
| eqv_plain (f : prel) R (e : seff R) k k' :
    plain e = true -> (forall r, eqv f (k r) (k' r)) -> eqv f (SDo e k) (SDo e k')
| eqv_host (f : prel) k k' : eqv f (k h) (k' h) -> eqv f (SDo SHost k) (SDo SHost k')
| eqv_new (f : prel) s k k' :
    (forall f' a b, sub f f' -> f' a b -> eqv f' (k a) (k' b)) ->
    eqv f (SDo (SNewSession s) k) (SDo (SNewSession s) k')
| eqv_store (f : prel) key a b k k' :
    Pk key -> f a b -> (forall r, eqv f (k r) (k' r)) ->
    eqv f (SDo (SStore key a) k) (SDo (SStore key b) k')
| eqv_load (f : prel) key k k' :
    Pk key -> eqv f (k None) (k' None) ->
    (forall f' a b, sub f f' -> f' a b -> eqv f' (k (Some a)) (k' (Some b))) ->
    eqv f (SDo (SLoad key) k) (SDo (SLoad key) k')
| eqv_secret (f : prel) a b k k' :
    f a b -> (forall r, eqv f (k r) (k' r)) ->
    eqv f (SDo (SSecret a) k) (SDo (SSecret b) k')
| eqv_check (f : prel) a b c k k' :
    f a b -> (forall r, eqv f (k r) (k' r)) ->
    eqv f (SDo (SCheck a c) k) (SDo (SCheck b c) k')
| eqv_handler (f : prel) a b c r m k k' :
    f a b -> (forall r, eqv f (k r) (k' r)) ->
    eqv f (SDo (SHandler a c r m) k) (SDo (SHandler b c r m) k')
| eqv_seal (f : prel) a b c key n pt k k' :
    f a b -> (forall r, eqv f (k r) (k' r)) ->
    eqv f (SDo (SSeal a c key n pt) k) (SDo (SSeal b c key n pt) k').

Lemma eqv_mono {A} f (p q : sprog A) : eqv f p q -> forall g, sub f g -> eqv g p q.
Proof.
  induction 1; intros g Hg.
  - apply eqv_ret.
  - apply eqv_panic.
  - apply eqv_read. auto.
  - apply eqv_plain; auto.
  - apply eqv_host. auto.
  - apply eqv_new. intros f' a b Hs Hab. apply H; [|exact Hab]. intros x y Hxy. apply Hs, Hg, Hxy.
  - apply eqv_store; auto.
  - apply eqv_load; auto. intros f' a b Hs Hab. apply H1; [|exact Hab]. intros x y Hxy. apply Hs, Hg, Hxy.
  - apply eqv_secret; auto.
  - apply eqv_check; auto.
  - apply eqv_handler; auto.
  - apply eqv_seal; auto.
Qed.

Lemma eqv_bind {A B} f (p q : sprog A) : eqv f p q -> forall (k k' : A -> sprog B),
  (forall f' a, sub f f' -> eqv f' (k a) (k' a)) -> eqv f (sbind p k) (sbind q k').
Proof.
  assert (Hrefl : forall f, sub f f) by (intros f0 x y; auto).
  induction 1; intros K K' HK; cbn [sbind]; try (econstructor; eauto; fail).
  - apply HK. apply Hrefl.
  - apply eqv_new. intros f' a b Hs Hab. apply H0; auto. intros f2 x H2. apply HK. intros u v Huv. apply H2, Hs, Huv.
  - apply eqv_load; auto. intros f' a b Hs Hab. apply H2; auto. intros f2 x H3. apply HK. intros u v Huv. apply H3, Hs, Huv.
Qed.

(** What a parser that succeeds guarantees. *)
Fixpoint ensures {A} (p : parser A) (Post : A -> Prop) : Prop :=
  match p with
  | PRet a => Post a
  | PFail _ => True
  | PRead n k => forall r, (forall b, r = inr b -> lenN b = n) -> ensures (k r) Post
  | PCopy n k => forall r, ensures (k r) Post
  | PAlloc n k => ensures k Post
  end.

Lemma eqv_lift {A B} f (p : parser A) Post : ensures p Post -> forall (k k' : perr + A -> sprog B),
  (forall r, (forall m, r = inr m -> Post m) -> eqv f (k r) (k' r)) ->
  eqv f (sbind (slift p) k) (sbind (slift p) k').
Proof.
  induction p as [a|e|n k0 IH|n k0 IH|n k0 IH]; cbn [ensures slift sbind]; intros Hen k k' Hk.
  - apply Hk. intros m E. injection E as <-. exact Hen.
  - apply Hk. discriminate.
  - apply eqv_read. intros r Hr. apply IH; auto.
  - apply eqv_plain; auto.
  - apply eqv_plain; auto.
Qed.
End Eqv.

(** ** The handlers *)
Definition own_key (C : Crypto) (Pk : bytes -> Prop) (h : option bytes) : Prop :=
  forall hst id, h = Some hst -> lenN id = 16 -> Pk (session_key C hst id).

Lemma ensures_pread n : ensures (pread n) (fun b => lenN b = n).
Proof. intros [e|b] Hr; cbn; auto. Qed.

Lemma ensures_bind {A B} (p : parser A) (g : A -> parser B) P Q :
  ensures p P -> (forall a, P a -> ensures (g a) Q) -> ensures (pbind p g) Q.
Proof. induction p; cbn [ensures pbind]; intros Hp Hg; auto. Qed.

Lemma ensures_top {A} (p : parser A) : ensures p (fun _ => True).
Proof. induction p; cbn [ensures]; auto. Qed.

Lemma ensures_weak {A} (p : parser A) (P Q : A -> Prop) :
  ensures p P -> (forall a, P a -> Q a) -> ensures p Q.
Proof. induction p; cbn [ensures]; intros Hp HPQ; eauto. Qed.

Lemma setup_id C rc : ensures (parse_setup_req C rc) (fun m => lenN (sr_id m) = 16).
Proof.
  unfold parse_setup_req. apply (ensures_bind _ _ _ _ (ensures_pread 16)). intros id Hid.
  apply (ensures_bind _ _ _ _ (ensures_top _)). intros sz _.
  destruct (max_key_size <? be_dec sz); [exact I|].
  apply (ensures_bind _ _ _ _ (ensures_top _)). intros u _.
  apply (ensures_bind _ _ _ _ (ensures_top _)). intros raw _.
  apply (ensures_bind _ _ _ _ (ensures_top _)). intros k _. exact Hid.
Qed.

Lemma process_id rc : ensures (parse_process_req rc) (fun m => lenN (pr_id m) = 16).
Proof.
  unfold parse_process_req. apply (ensures_bind _ _ _ _ (ensures_top _)). intros f0 _.
  apply (ensures_bind _ _ _ _ (ensures_pread 16)). intros id Hid.
  apply (ensures_bind _ _ _ _ (ensures_top _)). intros ctr _.
  apply (ensures_bind _ _ _ _ (ensures_top _)). intros sz _.
  destruct (max_message_size <? be_dec sz); [exact I|].
  apply (ensures_bind _ _ _ _ (ensures_top _)). intros u _.
  apply (ensures_bind _ _ _ _ (ensures_top _)). intros raw _. exact Hid.
Qed.

Lemma ev_error Pk h f b : eqv Pk h f (write_error_response b) (write_error_response b).
Proof.
  unfold write_error_response, sdo. cbn [sbind]. apply eqv_plain; [reflexivity|].
  intros [n [e|]]; apply eqv_ret.
Qed.

Lemma ev_reply Pk h f c m : eqv Pk h f (reply_error c m) (reply_error c m).
Proof. apply ev_error. Qed.

Lemma ev_response Pk h f b : eqv Pk h f (write_response b) (write_response b).
Proof.
  unfold write_response, sdo. cbn [sbind]. apply eqv_plain; [reflexivity|].
  intros [n [[|]|]]; try apply eqv_ret. destruct (0 <? n); [apply eqv_ret|apply ev_error].
Qed.

Section Prog.
Variables (C : Crypto) (Pk : bytes -> Prop) (h : option bytes).
Hypothesis Hown : own_key C Pk h.
Notation ev := (eqv Pk h).

Lemma ev_setup f m : lenN (sr_id m) = 16 -> ev f (setup_after C m) (setup_after C m).
Proof.
  intros Hid. unfold setup_after, sdo. cbn [sbind].
  apply eqv_plain; [reflexivity|]. intros [sk|]; [|apply ev_reply].
  destruct (x_dh C sk (sr_pub m)) as [shared|]; [|apply ev_reply]. cbn [sbind].
  apply eqv_host. destruct h as [hst|] eqn:Eh; [|apply ev_reply]. cbn [sbind].
  apply eqv_new. intros f' a b Hs Hab. cbn [sbind].
  apply eqv_store; [apply Hown; auto|exact Hab|]. intros [|]; cbn [negb]; [|apply ev_reply].
  apply eqv_plain; [reflexivity|]. intros [sig| |].
  - destruct (new_hash_type SHA512); [apply ev_response|apply eqv_panic].
  - apply ev_reply.
  - apply eqv_panic.
Qed.

Lemma ev_process f m : lenN (pr_id m) = 16 -> ev f (process_after C m) (process_after C m).
Proof.
  intros Hid. unfold process_after, sdo. cbn [sbind].
  apply eqv_host. destruct h as [hst|] eqn:Eh; [|apply ev_reply]. cbn [sbind].
  apply eqv_load; [apply Hown; auto|apply ev_reply|]. intros f' a b Hs Hab. cbn [sbind].
  apply eqv_check; [exact Hab|]. intros [|]; cbn [negb]; [|apply ev_reply].
  apply eqv_secret; [exact Hab|]. intros secret.
  destruct (new_gcm C secret) as [key|]; [|apply ev_reply].
  destruct (gcm_open C key (gcm_nonce dir_c2s (pr_counter m)) (pr_msg m)) as [msg|]; [|apply ev_reply].
  cbn [sbind]. apply eqv_handler; [exact Hab|]. intros [out| |]; [|apply ev_reply|apply eqv_panic].
  destruct (pr_reply m); [|apply eqv_ret]. cbn [sbind].
  apply eqv_seal; [exact Hab|]. intros ct. apply ev_response.
Qed.

Lemma ev_fetch f : ev f (fetch_key_handler C) (fetch_key_handler C).
Proof.
  unfold fetch_key_handler, sdo. cbn [sbind]. apply eqv_plain; [reflexivity|].
  intros [[alg pk]| |]; [|apply ev_reply|apply eqv_panic].
  destruct (pkix_marshal C pk); [apply ev_response|apply ev_reply].
Qed.

Lemma ev_request f : ev f (one_request C) (one_request C).
Proof.
  unfold one_request. apply (eqv_lift Pk h f _ _ (ensures_top _)). intros [e|rc] _; [apply eqv_ret|].
  destruct (rq_version rc =? version1); [|apply eqv_ret]. unfold handle.
  destruct (rq_action rc =? action_hello); [apply ev_response|].
  destruct (rq_action rc =? action_setup).
  { apply (eqv_lift Pk h f _ _ (setup_id C rc)). intros [e|m] Hm; [apply ev_reply|]. apply ev_setup, Hm. reflexivity. }
  destruct (rq_action rc =? action_process).
  { apply (eqv_lift Pk h f _ _ (process_id rc)). intros [e|m] Hm; [apply ev_reply|]. apply ev_process, Hm. reflexivity. }
  destruct (rq_action rc =? action_fetch_key); [apply ev_fetch|apply eqv_ret].
Qed.

Lemma ev_body f : ev f (conn_body C) (conn_body C).
Proof.
  unfold conn_body, sdo. cbn [sbind]. apply eqv_plain; [reflexivity|].
  intros [|]; [apply eqv_ret|apply ev_request].
Qed.
End Prog.

(** ** The simulation *)
Record rel (K : bytes -> bool) (f : prel) (N : nat -> Prop) (m m' : mem) : Prop := {
  r_fun : forall a b b', f a b -> f a b' -> b = b';
  r_inj : forall a a' b, f a b -> f a' b -> a = a';
  r_lt : forall a b, f a b -> (a < m_next m /\ b < m_next m')%nat;
  r_heap : forall a b, f a b -> m_heap m a = m_heap m' b;
  r_own : forall k, K k = true ->
    match m_map m k, m_map m' k with Some a, Some b => f a b | None, None => True | _, _ => False end;
  r_low : forall a, N a -> (a < m_next m)%nat;
  r_dis : forall a b, N a -> f a b -> False;
  r_other : forall k a, K k = false -> m_map m k = Some a -> N a }.

Definition crel (P : bytes -> Prop) (h : option bytes) (f : prel) (c c' : conn) : Prop :=
  c_in c = c_in c' /\ c_step c = c_step c' /\ c_sent c = c_sent c' /\
  seen (c_calls c) = seen (c_calls c') /\
  eqv P h f (c_prog c) (c_prog c').

Definition nrel (P : bytes -> Prop) (h : option bytes) (N : nat -> Prop) (c : conn) : Prop :=
  exists q, eqv P h (fun a b => a = b /\ N a) (c_prog c) q.

Lemma sub_refl f : sub f f. Proof. intros a b; auto. Qed.

Lemma fl_read_len n i e b j : fl_read n i e = (inr b, j) -> lenN b = n.
Proof.
  unfold fl_read. destruct (N.leb_spec n (lenN i)) as [Hle|Hgt]; [|discriminate].
  intros H. injection H as <- _. rewrite takeN_len. lia.
Qed.

Lemma eqb_ne a b : a <> b -> Nat.eqb a b = false.
Proof. intros H. apply Nat.eqb_neq. exact H. Qed.

Lemma g_step C E tcp K P f N m m' c c' :
  own_key C P (e_host E) -> (forall k, next_key (c_prog c) = Some k -> K k = true) ->
  rel K f N m m' -> crel P (e_host E) f c c' ->
  exists f', sub f f' /\
    rel K f' N (fst (conn_step C E tcp m c)) (fst (conn_step C E tcp m' c')) /\
    crel P (e_host E) f' (snd (conn_step C E tcp m c)) (snd (conn_step C E tcp m' c')).
Proof.
  intros Hown Hnext Hr (Hin & Hst & Hse & Hca & He).
  destruct c as [p i n se ca], c' as [p' i' n' se' ca'].
  cbn [c_in c_step c_sent c_calls c_prog] in *. subst i' n' se'.
  pose proof Hr as Hr0. destruct Hr0 as [Rf Ri Rl Rh Ro Rlo Rd Rot].
  unfold conn_step. cbn [c_prog].
  destruct He as [f a|f|f n0 k k' Hk|f R e k k' Hp Hk|f k k' Hk|f s k k' Hk|f key a b k k' HP Hab Hk
    |f key k k' HP Hn Hk|f a b k k' Hab Hk|f a b cc k k' Hab Hk|f a b cc rr mm k k' Hab Hk
    |f a b cc key nn pt k k' Hab Hk]; cbn [next_key] in Hnext.
  - exists f. split; [apply sub_refl|]. destruct a.
    + cbn [fst snd]. split; [exact Hr|]. destruct tcp; repeat split; auto; cbn; try apply eqv_ret. apply ev_body, Hown.
    + cbn [fst snd]. split; [exact Hr|]. repeat split; auto. apply eqv_ret.
  - exists f. split; [apply sub_refl|]. cbn. split; [exact Hr|]. repeat split; auto. apply eqv_panic.
  - exists f. split; [apply sub_refl|]. cbn [sexec join s_in c_in].
    destruct (fl_read n0 i (e_end E)) as [r j] eqn:Er. cbn. split; [destruct m, m'; exact Hr|].
    repeat split; auto. cbn. apply Hk. intros b ->. apply fl_read_len in Er. exact Er.
  - exists f. split; [apply sub_refl|].
    destruct e; try discriminate Hp; cbn [sexec join s_in s_step c_in c_step].
    + destruct (fl_copy n0 i (e_end E)) as [r j]. cbn. split; [destruct m, m'; exact Hr|].
      repeat split; auto. apply Hk.
    + cbn. split; [destruct m, m'; exact Hr|]. repeat split; auto. apply Hk.
    + destruct (e_write E n b) as [w er]. cbn. split; [destruct m, m'; exact Hr|].
      repeat split; auto. apply Hk.
    + cbn. split; [destruct m, m'; exact Hr|]. repeat split; auto. apply Hk.
    + cbn. split; [destruct m, m'; exact Hr|]. repeat split; auto. apply Hk.
    + cbn. split; [destruct m, m'; exact Hr|]. repeat split; auto. apply Hk.
    + cbn. split; [destruct m, m'; exact Hr|]. repeat split; auto. apply Hk.
  - exists f. split; [apply sub_refl|]. cbn. split; [destruct m, m'; exact Hr|]. repeat split; auto.
  - set (f' := fun a b => f a b \/ (a = m_next m /\ b = m_next m')).
    assert (Hs : sub f f') by (intros a b H; left; exact H).
    exists f'. split; [exact Hs|]. cbn. split.
    + constructor; cbn.
      * intros a b b' [H1|[A1 A2]] [H2|[A3 A4]]; subst; [eauto|apply Rl in H1; lia|apply Rl in H2; lia|reflexivity].
      * intros a a' b [H1|[A1 A2]] [H2|[A3 A4]]; subst; [eauto|apply Rl in H1; lia|apply Rl in H2; lia|reflexivity].
      * intros a b [H|[-> ->]]; [apply Rl in H|]; lia.
      * intros a b [H|[-> ->]].
        -- pose proof (Rl _ _ H). rewrite !eqb_ne by lia. apply Rh, H.
        -- rewrite !Nat.eqb_refl. reflexivity.
      * intros q Hq. specialize (Ro q Hq). destruct (m_map m q), (m_map m' q); auto.
      * intros a Ha. apply Rlo in Ha. lia.
      * intros a b Ha [H|[-> ->]]; [eauto|]. apply Rlo in Ha. lia.
      * exact Rot.
    + repeat split; auto. cbn. apply Hk; [exact Hs|]. right. split; reflexivity.
  - exists f. split; [apply sub_refl|]. cbn [sexec join s_step c_step].
    destruct (e_store E n); cbn.
    + split; [|repeat split; auto; apply Hk]. constructor; cbn; auto.
      * intros q Hq. destruct (bytes_eqb q key) eqn:Eq; [exact Hab|apply Ro, Hq].
      * intros q x Hq Hx. destruct (bytes_eqb q key) eqn:Eq; [|eauto].
        destruct (bytes_eqb_spec q key) as [->|]; [|discriminate Eq]. rewrite (Hnext key eq_refl) in Hq. discriminate Hq.
    + split; [destruct m, m'; exact Hr|]. repeat split; auto. apply Hk.
  - exists f. split; [apply sub_refl|]. cbn. split; [destruct m, m'; exact Hr|]. repeat split; auto.
    cbn. specialize (Ro key (Hnext key eq_refl)). destruct (m_map m key), (m_map m' key); try contradiction; auto.
    apply Hk; [apply sub_refl|exact Ro].
  - exists f. split; [apply sub_refl|]. cbn. split; [destruct m, m'; exact Hr|]. repeat split; auto.
    cbn. rewrite (Rh _ _ Hab). apply Hk.
  - exists f. split; [apply sub_refl|]. cbn [sexec join s_heap]. rewrite (Rh _ _ Hab).
    destruct (check_and_update (ses_win (m_heap m' b)) cc) as [r w]. cbn. split.
    + constructor; cbn; auto. intros x y Hxy.
      destruct (Nat.eqb_spec x a) as [->|Hx].
      * rewrite (Rf _ _ _ Hxy Hab), Nat.eqb_refl. reflexivity.
      * rewrite eqb_ne; [apply Rh, Hxy|]. intros ->. apply Hx. eapply Ri; eauto.
    + repeat split; auto. apply Hk.
  - exists f. split; [apply sub_refl|]. cbn. split; [destruct m, m'; exact Hr|]. repeat split; auto.
    + unfold seen in *. cbn. rewrite !map_app, Hca. reflexivity.
    + apply Hk.
  - exists f. split; [apply sub_refl|]. cbn. split; [destruct m, m'; exact Hr|]. repeat split; auto. apply Hk.
Qed.

Lemma n_step C E tcp K P f N m m' c :
  own_key C P (e_host E) -> (forall k, next_key (c_prog c) = Some k -> K k = false) ->
  rel K f N m m' -> nrel P (e_host E) N c ->
  exists N' : nat -> Prop, (forall a, N a -> N' a) /\
    rel K f N' (fst (conn_step C E tcp m c)) m' /\
    nrel P (e_host E) N' (snd (conn_step C E tcp m c)).
Proof.
  intros Hown Hnext Hr [q He].
  destruct c as [p i n se ca]. cbn [c_prog] in He.
  pose proof Hr as Hr0. destruct Hr0 as [Rf Ri Rl Rh Ro Rlo Rd Rot].
  unfold conn_step. cbn [c_prog].
  remember (fun a b : nat => a = b /\ N a) as d eqn:Ed.
  assert (Hd : forall a b, d a b -> a = b /\ N a) by (subst d; auto).
  assert (Hd' : forall a, N a -> d a a) by (subst d; auto).
  assert (Keep : forall c, (exists q, eqv P (e_host E) d (c_prog c) q) -> nrel P (e_host E) N c)
    by (subst d; auto).
  clear Ed.
  destruct He as [d a|d|d n0 k k' Hk|d R e k k' Hp Hk|d k k' Hk|d s k k' Hk|d key a b k k' HP Hab Hk
    |d key k k' HP Hn Hk|d a b k k' Hab Hk|d a b cc k k' Hab Hk|d a b cc rr mm k k' Hab Hk
    |d a b cc key nn pt k k' Hab Hk]; cbn [next_key] in Hnext.
  - exists N. split; [auto|]. destruct a; cbn [fst snd]; (split; [exact Hr|]).
    + destruct tcp; apply Keep; eexists; [apply ev_body, Hown|apply eqv_ret].
    + apply Keep. eexists. apply eqv_ret.
  - exists N. split; [auto|]. cbn [fst snd]. split; [exact Hr|]. apply Keep. eexists. apply eqv_panic.
  - exists N. split; [auto|]. cbn [sexec join s_in c_in].
    destruct (fl_read n0 i (e_end E)) as [r j] eqn:Er. cbn. split; [destruct m; exact Hr|].
    apply Keep. eexists. cbn. apply Hk. intros b ->. apply fl_read_len in Er. exact Er.
  - exists N. split; [auto|].
    destruct e; try discriminate Hp; cbn [sexec join s_in s_step c_in c_step].
    + destruct (fl_copy n0 i (e_end E)) as [r j]. cbn. split; [destruct m; exact Hr|].
      apply Keep. eexists. apply Hk.
    + cbn. split; [destruct m; exact Hr|]. apply Keep. eexists. apply Hk.
    + destruct (e_write E n b) as [w er]. cbn. split; [destruct m; exact Hr|]. apply Keep. eexists. apply Hk.
    + cbn. split; [destruct m; exact Hr|]. apply Keep. eexists. apply Hk.
    + cbn. split; [destruct m; exact Hr|]. apply Keep. eexists. apply Hk.
    + cbn. split; [destruct m; exact Hr|]. apply Keep. eexists. apply Hk.
    + cbn. split; [destruct m; exact Hr|]. apply Keep. eexists. apply Hk.
  - exists N. split; [auto|]. cbn. split; [destruct m; exact Hr|]. apply Keep. eexists. exact Hk.
  - set (N' := fun a => N a \/ a = m_next m). exists N'. split; [left; auto|]. cbn. split.
    + constructor; cbn; auto.
      * intros a b H. apply Rl in H. lia.
      * intros a b H. pose proof (Rl _ _ H). rewrite eqb_ne by lia. apply Rh, H.
      * intros a [Ha| ->]; [apply Rlo in Ha|]; lia.
      * intros a b [Ha| ->] H; [eauto|]. apply Rl in H. lia.
      * intros q a Hq Ha. left. eauto.
    + exists (k' (m_next m)). cbn. apply Hk.
      * intros a b H. destruct (Hd _ _ H) as [<- Ha]. split; [reflexivity|left; exact Ha].
      * split; [reflexivity|right; reflexivity].
  - exists N. split; [auto|]. destruct (Hd _ _ Hab) as [<- Ha]. cbn [sexec join s_step c_step].
    destruct (e_store E n); cbn.
    + split; [|apply Keep; eexists; apply Hk]. constructor; cbn; auto.
      * intros q Hq. destruct (bytes_eqb_spec q key) as [->|Hne]; [|apply Ro, Hq]. rewrite (Hnext key eq_refl) in Hq. discriminate Hq.
      * intros q x Hq Hx. destruct (bytes_eqb q key) eqn:Eq; [congruence|eauto].
    + split; [destruct m; exact Hr|]. apply Keep. eexists. apply Hk.
  - exists N. split; [auto|]. cbn. split; [destruct m; exact Hr|]. apply Keep. cbn.
    destruct (m_map m key) as [a|] eqn:Em.
    + eexists. apply (Hk d a a); [apply sub_refl|]. apply Hd'. exact (Rot _ _ (Hnext key eq_refl) Em).
    + eexists. exact Hn.
  - exists N. split; [auto|]. cbn. split; [destruct m; exact Hr|]. apply Keep. eexists. apply Hk.
  - exists N. split; [auto|]. destruct (Hd _ _ Hab) as [<- Ha]. cbn [sexec join s_heap].
    destruct (check_and_update (ses_win (m_heap m a)) cc) as [r w]. cbn. split.
    + constructor; cbn; auto. intros x y Hxy. rewrite eqb_ne; [apply Rh, Hxy|]. intros ->. eauto.
    + apply Keep. eexists. apply Hk.
  - exists N. split; [auto|]. cbn. split; [destruct m; exact Hr|]. apply Keep. eexists. apply Hk.
  - exists N. split; [auto|]. cbn. split; [destruct m; exact Hr|]. apply Keep. eexists. apply Hk.
Qed.

Lemma nrel_mono P h (N N' : nat -> Prop) c : (forall a, N a -> N' a) -> nrel P h N c -> nrel P h N' c.
Proof.
  intros HN [q Hq]. exists q. apply (eqv_mono _ _ _ _ _ Hq). intros a b [H1 H2]. auto.
Qed.

Lemma crel_mono P h f f' c c' : sub f f' -> crel P h f c c' -> crel P h f' c c'.
Proof. intros Hs (A1 & A2 & A3 & A4 & A5). repeat split; auto. eapply eqv_mono; eauto. Qed.

Definition sim (G : nat -> bool) (K : bytes -> bool) (P : nat -> bytes -> Prop) (E : nat -> senv) (t t' : mst) : Prop :=
  exists f N, rel K f N (t_mem t) (t_mem t') /\
    forall i, if G i then crel (P i) (e_host (E i)) f (t_conn t i) (t_conn t' i)
              else nrel (P i) (e_host (E i)) N (t_conn t i).

Section Sim.
Variables (C : Crypto) (E : nat -> senv) (tcp : nat -> bool) (G : nat -> bool) (K : bytes -> bool)
  (P : nat -> bytes -> Prop).
Hypothesis Hown : forall i, own_key C (P i) (e_host (E i)).

Lemma sim_step a t t' : within1 G K t a -> sim G K P E t t' ->
  sim G K P E (mstep C E tcp t a)
    (if match a with AConn i => G i | ACollect k => K k end then mstep C E tcp t' a else t').
Proof.
  intros Hw (f & N & Hr & Hc). destruct a as [i|k].
  - cbn [within1] in Hw. destruct (G i) eqn:Gi.
    + pose proof (Hc i) as Hi. rewrite Gi in Hi.
      destruct (g_step C (E i) (tcp i) K (P i) f N _ _ _ _ (Hown i) Hw Hr Hi) as (f' & Hs & Hr' & Hi').
      exists f', N. split; [exact Hr'|]. intros j. cbn. destruct (Nat.eqb_spec j i) as [->|Hj].
      * rewrite Gi. exact Hi'.
      * specialize (Hc j). destruct (G j); [eapply crel_mono; eauto|exact Hc].
    + pose proof (Hc i) as Hi. rewrite Gi in Hi.
      destruct (n_step C (E i) (tcp i) K (P i) f N _ _ _ (Hown i) Hw Hr Hi) as (N' & Hs & Hr' & Hi').
      exists f, N'. split; [exact Hr'|]. intros j. cbn. destruct (Nat.eqb_spec j i) as [->|Hj].
      * rewrite Gi. exact Hi'.
      * specialize (Hc j). destruct (G j); [exact Hc|eapply nrel_mono; eauto].
  - destruct Hr as [Rf Ri Rl Rh Ro Rlo Rd Rot]. exists f, N. destruct (K k) eqn:Kk; (split; [|exact Hc]).
    + constructor; cbn; auto.
      * intros q Hq. destruct (bytes_eqb q k); [exact I|apply Ro, Hq].
      * intros q a Hq Ha. destruct (bytes_eqb q k); [discriminate|eauto].
    + constructor; cbn; auto.
      * intros q Hq. destruct (bytes_eqb_spec q k) as [->|]; [congruence|apply Ro, Hq].
      * intros q a Hq Ha. destruct (bytes_eqb q k); [discriminate|eauto].
Qed.

Lemma sim_run sched : forall t t', within C E tcp G K sched t -> sim G K P E t t' ->
  sim G K P E (mrun C E tcp sched t) (mrun C E tcp (part G K sched) t').
Proof.
  induction sched as [|a l IH]; intros t t' Hw H; [exact H|]. destruct Hw as [Hw Hl].
  apply (sim_step a _ _ Hw) in H. unfold mrun, part. cbn [fold_left filter].
  destruct (match a with AConn i => G i | ACollect k => K k end); cbn [fold_left]; apply IH; assumption.
Qed.

Lemma sim_start inputs m : sane m -> sim G K P E (starting C tcp inputs m) (starting C tcp inputs m).
Proof.
  intros [Hlt Hinj].
  exists (fun a b => a = b /\ exists k, K k = true /\ m_map m k = Some a),
         (fun a => exists k, K k = false /\ m_map m k = Some a). split.
  - constructor; cbn.
    + intros a b b' [-> _] [-> _]. reflexivity.
    + intros a a' b [-> _] [-> _]. reflexivity.
    + intros a b [<- (k & _ & Hk)]. apply Hlt in Hk. lia.
    + intros a b [<- _]. reflexivity.
    + intros k Hk. destruct (m_map m k) eqn:Em; [|exact I]. split; [reflexivity|]. exists k. auto.
    + intros a (k & _ & Hk). eauto.
    + intros a b (k & Hk & Ha) [_ (k' & Hk' & Ha')]. rewrite (Hinj _ _ _ Ha Ha') in Hk. congruence.
    + intros k a Hk Ha. exists k. auto.
  - intros i. cbn. destruct (G i) eqn:Gi.
    + repeat split. cbn. destruct (tcp i); [apply ev_body|apply ev_request]; apply Hown.
    + exists (if tcp i then conn_body C else one_request C). cbn [c_prog fresh_conn].
      destruct (tcp i); [apply ev_body|apply ev_request]; apply Hown.
Qed.

Lemma crel_same Q h f c c' tc : crel Q h f c c' -> same_conduct tc c c'.
Proof.
  intros (A1 & A2 & A3 & A4 & A5). repeat split; auto. unfold status_of.
  destruct A5; reflexivity.
Qed.

Lemma undisturbed_if inputs m sched : sane m -> within C E tcp G K sched (starting C tcp inputs m) ->
  let all := mrun C E tcp sched (starting C tcp inputs m) in
  let few := mrun C E tcp (part G K sched) (starting C tcp inputs m) in
  (forall i, G i = true -> same_conduct (tcp i) (t_conn all i) (t_conn few i)) /\
  (forall hst id, K (session_key C hst id) = true ->
     session_of C (t_mem all) hst id = session_of C (t_mem few) hst id).
Proof.
  intros Hs Hw. destruct (sim_run sched _ _ Hw (sim_start inputs m Hs)) as (f & N & Hr & Hc). split.
  - intros i Gi. specialize (Hc i). rewrite Gi in Hc. eapply crel_same; eauto.
  - intros hst id Hk. pose proof (r_own _ _ _ _ _ Hr _ Hk) as Ho. unfold session_of.
    destruct (m_map _ _) as [a|], (m_map _ _) as [b|]; try contradiction; auto.
    f_equal. apply (r_heap _ _ _ _ _ Hr _ _ Ho).
Qed.
End Sim.

(** Any division of the accessed entries. *)
Theorem undisturbed C E tcp G K inputs m sched : sane m ->
  within C E tcp G K sched (starting C tcp inputs m) ->
  let all := mrun C E tcp sched (starting C tcp inputs m) in
  let few := mrun C E tcp (part G K sched) (starting C tcp inputs m) in
  (forall i, G i = true -> same_conduct (tcp i) (t_conn all i) (t_conn few i)) /\
  (forall hst id, K (session_key C hst id) = true ->
     session_of C (t_mem all) hst id = session_of C (t_mem few) hst id).
Proof. apply (undisturbed_if C E tcp G K (fun _ _ => True)). intros i hst id _ _. exact I. Qed.

(** ** Division by host *)
Section Hosts.
Variables (C : Crypto) (E : nat -> senv) (tcp : nat -> bool) (G : nat -> bool) (K : bytes -> bool).
Hypothesis Hown : forall i hst id, e_host (E i) = Some hst -> lenN id = 16 -> K (session_key C hst id) = G i.

Let P (i : nat) (k : bytes) : Prop := K k = G i.

Lemma host_own i : own_key C (P i) (e_host (E i)).
Proof. intros hst id Hh Hid. apply (Hown i); assumption. Qed.

(** One effect keeps the programs of all connections within their entries. *)
Definition tame (t : mst) : Prop := forall i, nrel (P i) (e_host (E i)) (fun _ => True) (t_conn t i).

Lemma tame_next t : tame t -> forall a, within1 G K t a.
Proof.
  intros Ht [i|k]; [|exact I]. cbn. destruct (Ht i) as [q Hq]. destruct Hq; cbn; intros x Hx; try discriminate Hx.
  - destruct e; discriminate.
  - injection Hx as <-. assumption.
  - injection Hx as <-. assumption.
Qed.

Lemma tame_step a t : tame t -> tame (mstep C E tcp t a).
Proof.
  intros Ht. destruct a as [i|k]; [|exact Ht]. intros j. cbn.
  destruct (Nat.eqb_spec j i) as [->|Hj]; [|apply Ht].
  (* every pointer is allowed: the memory relation plays no part *)
  destruct (Ht i) as [q Hq]. unfold conn_step. destruct (t_conn t i) as [p inp n se ca]. cbn [c_prog] in *.
  remember (fun a b : nat => a = b /\ True) as d eqn:Ed.
  assert (Hd : forall a, d a a) by (subst d; auto).
  assert (Keep : forall c, (exists q, eqv (P i) (e_host (E i)) d (c_prog c) q) ->
                 nrel (P i) (e_host (E i)) (fun _ => True) c) by (subst d; auto).
  clear Ed. apply Keep.
  destruct Hq as [d b|d|d n0 k k' Hk|d R e k k' Hp Hk|d k k' Hk|d s k k' Hk|d key a b k k' HP Hab Hk
    |d key k k' HP Hn Hk|d a b k k' Hab Hk|d a b cc k k' Hab Hk|d a b cc rr mm k k' Hab Hk
    |d a b cc key nn pt k k' Hab Hk].
  - destruct b; cbn [snd]; [destruct (tcp i)|]; eexists; [apply ev_body, host_own|apply eqv_ret|apply eqv_ret].
  - eexists. apply eqv_panic.
  - cbn [sexec join s_in c_in]. destruct (fl_read n0 inp (e_end (E i))) as [r l] eqn:Er. eexists. cbn. apply Hk.
    intros b ->. apply fl_read_len in Er. exact Er.
  - destruct (sexec C (E i) e _) as [r s]. eexists. cbn. apply Hk.
  - eexists. cbn. exact Hk.
  - eexists. cbn. apply (Hk d (m_next (t_mem t)) (m_next (t_mem t))); [apply sub_refl|apply Hd].
  - destruct (sexec C (E i) (SStore key a) _) as [r s]. eexists. cbn. apply Hk.
  - cbn. destruct (m_map (t_mem t) key) as [a|].
    + eexists. apply (Hk d a a); [apply sub_refl|apply Hd].
    + eexists. exact Hn.
  - eexists. cbn. apply Hk.
  - cbn [sexec]. destruct (check_and_update _ cc) as [r w]. eexists. cbn. apply Hk.
  - eexists. cbn. apply Hk.
  - eexists. cbn. apply Hk.
Qed.

Lemma tame_start inputs m : tame (starting C tcp inputs m).
Proof.
  intros i. exists (if tcp i then conn_body C else one_request C). cbn [c_prog fresh_conn starting t_conn].
  destruct (tcp i); [apply ev_body|apply ev_request]; apply host_own.
Qed.

Lemma tame_within sched : forall t, tame t -> within C E tcp G K sched t.
Proof.
  induction sched as [|a l IH]; intros t Ht; [exact I|]. split; [apply tame_next, Ht|].
  apply IH, tame_step, Ht.
Qed.

Theorem hosts_apart inputs m sched : sane m ->
  let all := mrun C E tcp sched (starting C tcp inputs m) in
  let few := mrun C E tcp (part G K sched) (starting C tcp inputs m) in
  (forall i, G i = true -> same_conduct (tcp i) (t_conn all i) (t_conn few i)) /\
  (forall hst id, K (session_key C hst id) = true ->
     session_of C (t_mem all) hst id = session_of C (t_mem few) hst id).
Proof. intros Hs. apply undisturbed; [exact Hs|]. apply tame_within, tame_start. Qed.
End Hosts.
