From Verif Require Import Bytes BytesProofs Parser ParserProofs Crypto Kdf Wire WireProofs WireSeq Replay SpecReplay ReplayProofs
  SecretMgr SecretMgrProofs Server ServerSeq SpecServer ServerProofs ServerProps ServerProps2 ServerProps3
  Keys Client ClientSeq SpecClient ClientProofs SpecE2E E2EProofs LostProofs Aging SpecAging.

(** The manager is a refinement of the map. *)
Record sim (a : ast) (s : sst) : Prop := {
  si_in : s_in s = s_in (a_srv a); si_step : s_step s = s_step (a_srv a); si_sent : s_sent s = s_sent (a_srv a);
  si_heap : s_heap s = s_heap (a_srv a); si_next : s_next s = s_next (a_srv a); si_calls : s_calls s = s_calls (a_srv a);
  si_map : forall k, s_map s k = option_map it_session (a_mgr a k) }.
Lemma sim_view a : sim a (view a).
Proof. split; reflexivity. Qed.
Lemma sim_exec C E {R} (e : seff R) a s : (forall i, e_store E i = true) -> sim a s ->
  let '(r, a') := aexec C E e a in let '(r', s') := sexec C E e s in r = r' /\ sim a' s'.
Proof.
  intros St [Hi Hp Hs Hh Hn Hc Hm].
  assert (D : forall r (x y : sst), s_in y = s_in x -> s_step y = s_step x -> s_sent y = s_sent x -> s_heap y = s_heap x ->
    s_next y = s_next x -> s_calls y = s_calls x -> s_map y = s_map s -> (r : R) = r /\ sim (a_with a x) y).
  { intros r x y H1 H2 H3 H4 H5 H6 H7. split; [reflexivity|]. split; auto. intros k. rewrite H7. apply Hm. }
  destruct e; cbn [aexec sexec]; rewrite ?Hi, ?Hp, ?Hh, ?Hn.
  8: { rewrite St. split; [reflexivity|]. split; cbn; try congruence. intros k. unfold mgr_store, smap_set.
       destruct (bytes_eqb k key); [reflexivity|apply Hm]. }
  8: { unfold mgr_load. rewrite Hm. destruct (a_mgr a key) as [it|] eqn:Ek; (split; [reflexivity|]); split; cbn; try congruence; try exact Hm.
       intros k. unfold smap_set. destruct (bytes_eqb_spec k key) as [->|_]; [rewrite Hm, Ek; reflexivity|apply Hm]. }
  - destruct (fl_read n _ _). apply D; cbn; congruence.
  - destruct (fl_copy n _ _). apply D; cbn; congruence.
  - apply D; cbn; congruence.
  - destruct (e_write E _ b). apply D; cbn; congruence.
  - apply D; cbn; congruence.
  - apply D; cbn; congruence.
  - apply D; cbn; rewrite ?Hh; congruence.
  - apply D; cbn; congruence.
  - destruct (check_and_update _ c). apply D; cbn; rewrite ?Hh; congruence.
  - apply D; cbn; congruence.
  - apply D; cbn; congruence.
  - apply D; cbn; congruence.
  - apply D; cbn; congruence.
  - apply D; cbn; congruence.
Qed.
Lemma sim_run C E {A} (p : sprog A) : (forall i, e_store E i = true) -> forall a s, sim a s ->
  let '(r, a') := arun C E p a in let '(r', s') := srun C E p s in r = r' /\ sim a' s'.
Proof.
  intros St. induction p as [x| |R e k IH]; intros a s S; cbn [arun srun]; auto.
  pose proof (sim_exec C E e a s St S) as H. destruct (aexec C E e a) as [r a1], (sexec C E e s) as [r' s1].
  destruct H as [-> H]. apply IH. exact H.
Qed.

(** Time does not pass during a request, and a session that was used stays used. *)
Lemma aexec_now C E {R} (e : seff R) a : a_now (snd (aexec C E e a)) = a_now a.
Proof.
  destruct e; cbn [aexec]; try reflexivity; try (destruct (sexec _ _ _ _); reflexivity).
  destruct (mgr_load _ _ _). reflexivity.
Qed.
Lemma aexec_used C E {R} (e : seff R) a k : used_at a k (a_now a) -> used_at (snd (aexec C E e a)) k (a_now a).
Proof.
  intros [p H]. destruct e; cbn [aexec]; try (destruct (sexec _ _ _ _); exists p; exact H).
  - unfold used_at. cbn. unfold mgr_store, smap_set. destruct (bytes_eqb_spec k key) as [->|_]; eauto.
  - unfold mgr_load. destruct (a_mgr a key) as [it|] eqn:Ek; [|exists p; exact H].
    unfold used_at. cbn. unfold smap_set. destruct (bytes_eqb_spec k key) as [->|_]; eauto.
Qed.
Lemma arun_used C E {A} (p : sprog A) k : forall a, used_at a k (a_now a) -> used_at (snd (arun C E p a)) k (a_now a).
Proof.
  induction p as [x| |R e f IH]; intros a U; cbn [arun snd]; auto.
  pose proof (aexec_used C E e a k U) as H. pose proof (aexec_now C E e a) as N. destruct (aexec C E e a) as [r a1]. cbn [snd] in *.
  rewrite <- N in H |- *. apply IH. exact H.
Qed.
Lemma arun_bind {A B} C E (p : sprog A) (f : A -> sprog B) a :
  arun C E (sbind p f) a = match arun C E p a with (Some x, a') => arun C E (f x) a' | (None, a') => (None, a') end.
Proof. revert a. induction p as [x| |R e k IH]; intros a; cbn [sbind arun]; auto. destruct (aexec C E e a). apply IH. Qed.
Lemma a_with_id a : a_with a (a_srv a) = a.
Proof. destruct a; reflexivity. Qed.
Lemma arun_lift {A} C E (p : parser A) a :
  arun C E (slift p) a = (Some (fst (run p (s_in (a_srv a)) (e_end E))), a_with a (set_in (a_srv a) (snd (run p (s_in (a_srv a)) (e_end E))))).
Proof.
  revert a; induction p as [x|er|n k IH|n k IH|n k IH]; intros a; cbn [slift arun run aexec sexec].
  - cbn. rewrite set_in_id, a_with_id. reflexivity.
  - cbn. rewrite set_in_id, a_with_id. reflexivity.
  - destruct (fl_read n (s_in (a_srv a)) (e_end E)) as [r i]. rewrite IH. reflexivity.
  - destruct (fl_copy n (s_in (a_srv a)) (e_end E)) as [r i]. rewrite IH. reflexivity.
  - rewrite a_with_id. apply IH.
Qed.
Lemma process_loads C E a id ctr msg reply host p t : request_ok (RqProcess id ctr msg reply) ->
  s_in (a_srv a) = enc_request (RqProcess id ctr msg reply) -> e_quit E (s_step (a_srv a)) = false -> e_host E = Some host ->
  a_mgr a (session_key C host id) = Some {| it_session := p; it_last := t |} ->
  used_at (snd (arun C E (conn_body C) a)) (session_key C host id) (a_now a).
Proof.
  intros (Hid & Hc & Hm) Hin Hq Hh Hk. unfold conn_body. rewrite arun_bind. cbn [sdo arun aexec sexec]. rewrite Hq. cbn iota.
  unfold one_request. rewrite arun_bind, arun_lift. cbn [a_with a_srv]. change (s_in (tick (a_srv a))) with (s_in (a_srv a)).
  rewrite Hin, <- (app_nil_r (enc_request _)). cbn [enc_request].
  unfold enc_process_req. rewrite <- app_assoc, req_common_rt by (split; reflexivity).
  cbn [fst snd]. unfold handle. cbn [new_process_request pr_common rq_version rq_action].
  change (version1 =? version1) with true. change (action_process =? action_hello) with false.
  change (action_process =? action_setup) with false.
  change (action_process =? action_process) with true. cbn iota.
  unfold process_handler. rewrite arun_bind, arun_lift. cbn [a_with a_srv set_in s_in].
  assert (Hok : process_req_ok (new_process_request id ctr msg reply)).
  { constructor; auto; try reflexivity. split; reflexivity. }
  pose proof (process_req_rt_body (new_process_request id ctr msg reply) [] (e_end E) Hok) as P.
  unfold process_flags in P.
  cbn [new_process_request pr_common pr_reply pr_reserved pr_id pr_counter pr_size pr_msg] in *.
  rewrite <- !app_assoc. cbn [app]. rewrite P. cbn [fst snd].
  unfold process_after. cbn [sdo sbind arun aexec sexec]. rewrite Hh. cbn [sdo sbind arun aexec]. unfold mgr_load.
  match goal with |- context [match a_mgr ?x ?k with Some _ => _ | None => _ end] => change (a_mgr x k) with (a_mgr a (session_key C host id)) end.
  rewrite Hk. cbn [it_session].
  match goal with |- used_at (snd (arun C E ?q ?x)) ?k ?n => change n with (a_now x); apply (arun_used C E q k x) end.
  exists p. cbn. apply smap_set_same.
Qed.

(** ** Conversations *)
Lemma sim_known C a s host id : sim a s -> known C (view a) host id = known C s host id.
Proof. intros S. unfold known. rewrite (si_map a s S), (si_heap a s S). reflexivity. Qed.
Lemma sim_wf a s : sim a s -> wf s -> wf (view a).
Proof.
  intros [Hi Hp Hs Hh Hn Hc Hm] [W1 W2 W3]. split; cbn.
  - intros k p H. rewrite <- Hn. apply (W1 k). rewrite Hm. exact H.
  - intros k k' p H H'. apply (W2 k k' p); rewrite Hm; assumption.
  - intros p. rewrite <- Hh. apply W3.
Qed.
Lemma pass_sub ttl h : Forall (fun o => match o with MStore _ _ _ => False | _ => True end) h -> forall m k it,
  fold_left (mgr_step ttl) h m k = Some it -> exists it', m k = Some it' /\ it_session it' = it_session it.
Proof.
  induction 1 as [|o h Ho _ IH]; intros m k it H; [exists it; auto|]. cbn [fold_left] in H.
  destruct (IH _ _ _ H) as (it1 & E1 & S1). destruct o as [k' q t|k' t|t]; [destruct Ho| |]; cbn [mgr_step] in E1.
  - unfold mgr_load in E1. destruct (m k') as [it2|] eqn:E2; cbn [snd] in E1; [|exists it1; auto].
    unfold smap_set in E1. destruct (bytes_eqb_spec k k') as [->|_]; [|exists it1; auto].
    injection E1 as <-. exists it2. auto.
  - unfold mgr_gc in E1. destruct (0 <? ttl)%Z; [|exists it1; auto]. destruct (m k) as [it2|]; [|discriminate].
    destruct (ttl <? t - it_last it2)%Z; [discriminate|]. exists it1. split; congruence.
Qed.
Lemma pass_wf ttl u a : Forall (fun o => match o with MStore _ _ _ => False | _ => True end) (tu_between u) -> wf (view a) -> wf (view (a_pass ttl u a)).
Proof.
  intros F [W1 W2 W3].
  assert (G : forall k p, s_map (view (a_pass ttl u a)) k = Some p -> s_map (view a) k = Some p).
  { intros k p. cbn. destruct (fold_left (mgr_step ttl) (tu_between u) (a_mgr a) k) as [it|] eqn:E; [|discriminate]. cbn [option_map]. intros [= <-].
    destruct (pass_sub ttl _ F _ _ _ E) as (it' & -> & S). cbn [option_map]. congruence. }
  split.
  - intros k p H. exact (W1 k p (G k p H)).
  - intros k k' p H H'. exact (W2 k k' p (G k p H) (G k' p H')).
  - exact W3.
Qed.
Lemma no_store_stores k h : Forall (fun o => match o with MStore _ _ _ => False | _ => True end) h -> Forall (fun o => ~ stores k o) h.
Proof. apply Forall_impl. intros [k' p t|k' t|t]; cbn; tauto. Qed.

Lemma aged ttl k p : (0 < ttl)%Z -> forall l t m, m k = None \/ m k = Some {| it_session := p; it_last := t |} -> Forall (fun o => ~ stores k o) l ->
  fold_left (mgr_step ttl) l m k = None \/ fold_left (mgr_step ttl) l m k = Some {| it_session := p; it_last := last_use k t l |}.
Proof.
  intros Hp. induction l as [|o l IH]; intros t m Hm Hs; [exact Hm|]. inversion Hs as [|? ? Ho Hs']; subst.
  destruct Hm as [Hm|Hm]; [left; apply (gone_stays ttl k (o :: l) m Hm Hs)|].
  cbn [fold_left]. unfold last_use; cbn [fold_left]. fold (last_use k).
  apply IH; [|exact Hs']. destruct o as [k' p' t'|k' t'|t']; cbn [mgr_step touches time_of].
  - destruct (bytes_eqb_spec k' k) as [->|Hk]; [exfalso; apply Ho; reflexivity|].
    right. unfold mgr_store. rewrite smap_set_other by congruence. exact Hm.
  - right. unfold mgr_load. destruct (bytes_eqb_spec k' k) as [->|Hk].
    + rewrite Hm. cbn [snd it_session]. apply smap_set_same.
    + destruct (m k') as [it|]; cbn [snd]; [|exact Hm]. rewrite smap_set_other by congruence. exact Hm.
  - unfold mgr_gc. destruct (Z.ltb_spec 0 ttl); [|lia]. rewrite Hm. cbn [it_last].
    destruct (ttl <? t' - t)%Z; auto.
Qed.

Section Turns.
  Variables (C : Crypto) (CE : cenv) (SE : senv) (o : copts) (chost : bytes) (ttl : Z).
  Hypothesis L : CryptoLaws C.
  Hypothesis WC : c_works CE.
  Hypothesis WS : writes_all SE.
  Hypothesis Q : forall i, e_quit SE i = false.
  Hypothesis St : forall i, e_store SE i = true.
  Hypothesis Hh : e_host SE = Some chost.

  Lemma aturn_round ses n u cs a : 
    let '(r, c2, a1) := aturn C CE SE o ses n ttl u cs a in
    let '(_, r', c2', s1) := round C CE SE o ses (tu_msg u) n cs (view (a_pass ttl u a)) in
    r = r' /\ c2 = c2' /\ sim a1 s1.
  Proof.
    unfold aturn, round. destruct (crun C CE (client_write C o ses (tu_msg u)) cs) as [w c1].
    set (a0 := a_pass ttl u a). set (q := sent_by_client cs c1).
    assert (S0 : sim (a_with a0 (set_in (a_srv a0) q)) (set_in (view a0) q)) by (split; reflexivity).
    pose proof (sim_run C SE (conn_body C) St _ _ S0) as S1.
    destruct (arun C SE (conn_body C) (a_with a0 (set_in (a_srv a0) q))) as [x a1].
    destruct (srun C SE (conn_body C) (set_in (view a0) q)) as [x' s1]. destruct S1 as [_ S1].
    replace (sent_by_server (view a0) s1) with (sent_by_server (a_srv a) (a_srv a1)).
    - destruct (crun C CE (client_read C o ses n) _) as [r c2]. auto.
    - unfold sent_by_server. rewrite (si_sent _ _ S1). reflexivity.
  Qed.

  Lemma aturn_used ses n u cs a p t : length (cs_id ses) = 16%nat -> c_ctr cs + 1 < 2 ^ 64 -> lenN (tu_msg u) + 16 <= 2 ^ 30 ->
    let k := session_key C chost (cs_id ses) in
    a_mgr (a_pass ttl u a) k = Some {| it_session := p; it_last := t |} ->
    used_at (snd (aturn C CE SE o ses n ttl u cs a)) k (tu_now u).
  Proof.
    intros Hid Hc Hp k Hk. unfold aturn. destruct (client_gcm_some C L (cs_secret ses)) as (key & K).
    pose proof (write_ok_run C L CE o ses (tu_msg u) cs key WC K) as W.
    destruct (crun C CE (client_write C o ses (tu_msg u)) cs) as [w c1]. cbv zeta in W.
    rewrite N.mod_small in W by exact Hc. set (c := c_ctr cs + 1) in *.
    destruct W as (Wc & Wi & Wb & [(W0 & _)|(_ & Wl & _ & _ & Ws)]); [unfold c in W0; lia|].
    set (ct := gcm_seal C key (gcm_nonce dir_c2s c) (tu_msg u)) in *.
    set (q := enc_request (RqProcess (cs_id ses) c ct (co_reply o))) in *.
    assert (Sq : sent_by_client cs c1 = q).
    { unfold sent_by_client. rewrite Ws, skipn_app_exact. unfold wire. cbn [map concat fst snd]. rewrite app_nil_r. apply takeN_all. }
    rewrite Sq. set (a0 := a_pass ttl u a) in *.
    assert (Hok : request_ok (RqProcess (cs_id ses) c ct (co_reply o))).
    { split; [exact Hid|]. split; [exact Hc|]. unfold ct. rewrite (gcm_seal_len _ L). exact Hp. }
    pose proof (process_loads C SE (a_with a0 (set_in (a_srv a0) q)) (cs_id ses) c ct (co_reply o) chost p t Hok eq_refl (Q _) Hh Hk) as U.
    destruct (arun C SE (conn_body C) (a_with a0 (set_in (a_srv a0) q))) as [x a1]. cbn [snd] in U.
    destruct (crun C CE (client_read C o ses n) _) as [r c2]. exact U.
  Qed.

  Lemma turns_ok ses n (f : bytes -> bytes) : co_reply o = true ->
    let k := session_key C chost (cs_id ses) in
    forall us t hist cs a,
    paired C ses chost hist cs (view a) -> Forall (fun c => c <= c_ctr cs) hist -> used_at a k t ->
    no_stores us -> in_time ttl k t us -> c_ctr cs + lenN us < 2 ^ 64 ->
    Forall (fun u => lenN (tu_msg u) + 16 <= 2 ^ 30) us ->
    (forall i u, In u us -> e_handler SE i true (tu_msg u) = HOk (f (tu_msg u)) /\ f (tu_msg u) <> [] /\ lenN (f (tu_msg u)) + 16 <= 2 ^ 30 /\ lenN (f (tu_msg u)) <= n) ->
    let '(rs, _, a') := aturns C CE SE o ses n ttl us cs a in
    rs = map (fun u => Some (RdOk (f (tu_msg u)) true)) us /\
    map snd (s_calls (a_srv a')) = map snd (s_calls (a_srv a)) ++ map tu_msg us.
  Proof.
    intros Ho k. induction us as [|u us IH]; intros t hist cs a P F [p U] NS IT Hc Hp HH; cbn [aturns map].
    - split; [reflexivity|]. rewrite app_nil_r. reflexivity.
    - rewrite lenN_cons in Hc. inversion Hp as [|? ? Hp1 Hp2]; subst. inversion NS as [|? ? NS1 NS2]; subst. destruct IT as [IT1 IT2].
      set (a0 := a_pass ttl u a).
      assert (U0 : a_mgr a0 k = Some {| it_session := p; it_last := last_use k t (tu_between u) |}).
      { apply (kept_aux ttl k p t (tu_between u) (a_mgr a) U (no_store_stores k _ NS1)). intros h g h' E _. exact (IT1 h g h' E). }
      destruct P as [P1 P2 P3 P4 P5].
      assert (P0 : paired C ses chost hist cs (view a0)).
      { split; auto.
        - apply pass_wf; assumption.
        - rewrite <- P3. unfold known. cbn [view s_map s_heap]. fold k. rewrite U, U0. reflexivity. }
      pose proof (e2e_round C CE SE o chost L WC WS Q Hh Ho ses hist cs (view a0) (tu_msg u) n P0 ltac:(lia) (next_not_refused _ _ F) Hp1) as R.
      pose proof (aturn_round ses n u cs a) as AR. fold a0 in AR.
      pose proof (aturn_used ses n u cs a p _ P2 ltac:(lia) Hp1 U0) as U1.
      destruct (aturn C CE SE o ses n ttl u cs a) as [[r c2] a1]. cbn [snd] in U1.
      cbv zeta in R. destruct (round C CE SE o ses (tu_msg u) n cs (view a0)) as [[[w r'] c2'] s1]. destruct AR as (-> & -> & S).
      destruct R as (_ & (ptr & Rc) & (i & out & Ro & -> & Rb) & Rctr & Ri & Rwf & Rk & _).
      { intros i. destruct (HH i u (or_introl eq_refl)) as (A1 & A2 & A3 & _). eauto. }
      destruct (HH i u (or_introl eq_refl)) as (A1 & A2 & A3 & A4). rewrite A1 in Ro. injection Ro as <-.
      assert (P' : paired C ses chost (hist ++ [c_ctr cs + 1]) c2' (view a1)).
      { split; auto.
        - exact (sim_wf a1 s1 S Rwf).
        - rewrite (sim_known C a1 s1 _ _ S). exact Rk.
        - apply Forall_app. split; [exact P4|]. constructor; [lia|constructor].
        - rewrite Rb. unfold dropN. apply N.leb_le in A4. rewrite A4. reflexivity. }
      specialize (IH (tu_now u) _ _ _ P'). destruct (aturns C CE SE o ses n ttl us c2' a1) as [[rs c3] a3].
      destruct IH as (-> & I2); auto.
      + rewrite Rctr. apply Forall_app. split; [|constructor; [lia|constructor]].
        rewrite Forall_forall in *. intros x Hx. apply F in Hx. lia.
      + lia.
      + intros j u' Hin. apply HH. right; exact Hin.
      + split.
        * f_equal. f_equal. unfold takeN. apply N.leb_le in A4. rewrite A4. reflexivity.
        * rewrite I2, <- (si_calls a1 s1 S), Rc, map_app, <- app_assoc. reflexivity.
  Qed.

  (** Once collected, never found again. *)
  Lemma turns_lost ses n : length (cs_id ses) = 16%nat -> let k := session_key C chost (cs_id ses) in
    forall us cs a, a_mgr a k = None -> c_buf cs = [] -> no_stores us -> c_ctr cs + lenN us < 2 ^ 64 ->
    Forall (fun u => lenN (tu_msg u) + 16 <= 2 ^ 30) us ->
    let '(rs, _, a') := aturns C CE SE o ses n ttl us cs a in
    rs = map (fun _ => Some (RdErr (RdRemote 3 msg_unknown))) us /\ s_calls (a_srv a') = s_calls (a_srv a).
  Proof.
    intros Hid k. induction us as [|u us IH]; intros cs a Hk Hb NS Hc Hp; cbn [aturns map]; [auto|].
    rewrite lenN_cons in Hc. inversion Hp as [|? ? Hp1 Hp2]; subst. inversion NS as [|? ? NS1 NS2]; subst.
    set (a0 := a_pass ttl u a).
    assert (K0 : a_mgr a0 k = None) by (apply (gone_stays ttl k (tu_between u) (a_mgr a) Hk (no_store_stores k _ NS1))).
    assert (N0 : known C (view a0) chost (cs_id ses) = None) by (unfold known; cbn [view s_map]; fold k; rewrite K0; reflexivity).
    pose proof (lost_round C CE SE o chost L WC WS Q Hh ses cs (view a0) (tu_msg u) n Hid N0 Hb ltac:(lia) Hp1) as R.
    pose proof (aturn_round ses n u cs a) as AR. fold a0 in AR.
    destruct (aturn C CE SE o ses n ttl u cs a) as [[r c2] a1].
    destruct (round C CE SE o ses (tu_msg u) n cs (view a0)) as [[[w r'] c2'] s1]. destruct AR as (-> & -> & S).
    destruct R as (-> & R2 & R3 & R4 & R5).
    assert (K1 : a_mgr a1 k = None).
    { specialize (R3 chost (cs_id ses)). rewrite N0, <- (sim_known C a1 s1 _ _ S) in R3. unfold known in R3. cbn [view s_map] in R3. fold k in R3.
      destruct (a_mgr a1 k); [discriminate|reflexivity]. }
    specialize (IH c2' a1 K1 R4 NS2). destruct (aturns C CE SE o ses n ttl us c2' a1) as [[rs c3] a3].
    destruct IH as (-> & I2); [lia|exact Hp2|]. split; [reflexivity|]. rewrite I2, <- (si_calls a1 s1 S). exact R2.
  Qed.

  Lemma turns_expired ses n u us cs a t h g h' : length (cs_id ses) = 16%nat -> let k := session_key C chost (cs_id ses) in
    (0 < ttl)%Z -> used_at a k t -> tu_between u = h ++ MGc g :: h' -> (ttl < g - last_use k t h)%Z ->
    c_buf cs = [] -> no_stores (u :: us) -> c_ctr cs + lenN (u :: us) < 2 ^ 64 ->
    Forall (fun u => lenN (tu_msg u) + 16 <= 2 ^ 30) (u :: us) ->
    let '(rs, _, a') := aturns C CE SE o ses n ttl (u :: us) cs a in
    rs = map (fun _ => Some (RdErr (RdRemote 3 msg_unknown))) (u :: us) /\ s_calls (a_srv a') = s_calls (a_srv a).
  Proof.
    intros Hid k Ht [p U] Eb Hg Hb NS Hc Hp.
    assert (Sp : aturns C CE SE o ses n ttl (u :: us) cs a =
      aturns C CE SE o ses n ttl ({| tu_between := []; tu_now := tu_now u; tu_msg := tu_msg u |} :: us) cs (a_pass ttl u a)) by reflexivity.
    rewrite Sp. pose proof (turns_lost ses n Hid ({| tu_between := []; tu_now := tu_now u; tu_msg := tu_msg u |} :: us) cs (a_pass ttl u a)) as T.
    inversion NS as [|? ? NS1 NS2]; subst. inversion Hp as [|? ? Hp1 Hp2]; subst.
    destruct (aturns C CE SE o ses n ttl _ cs (a_pass ttl u a)) as [[rs c3] a3]. apply T; auto.
    - cbn [a_pass a_mgr]. rewrite Eb, fold_left_app. cbn [fold_left]. rewrite Eb in NS1. apply Forall_app in NS1. destruct NS1 as [F1 F2].
      inversion F2 as [|? ? _ F3]; subst. apply gone_stays; [|exact (no_store_stores k _ F3)].
      cbn [mgr_step]. unfold mgr_gc. destruct (Z.ltb_spec 0 ttl) as [_|]; [|lia]. fold k.
      destruct (aged ttl k p Ht h t (a_mgr a) (or_intror U) (no_store_stores k _ F1)) as [->| ->]; [reflexivity|]. cbn [it_last].
      destruct (Z.ltb_spec ttl (g - last_use k t h)); [reflexivity|lia].
    - constructor; [constructor|exact NS2].
  Qed.
End Turns.

Lemma manager_is_map C E A (p : sprog A) a : (forall i, e_store E i = true) ->
  let '(r, a') := arun C E p a in let '(r', s') := srun C E p (view a) in
  r = r' /\ s_in (a_srv a') = s_in s' /\ s_sent (a_srv a') = s_sent s' /\ s_calls (a_srv a') = s_calls s' /\
  s_heap (a_srv a') = s_heap s' /\ forall k, option_map it_session (a_mgr a' k) = s_map s' k.
Proof.
  intros St. pose proof (sim_run C E p St a (view a) (sim_view a)) as H.
  destruct (arun C E p a) as [r a'], (srun C E p (view a)) as [r' s']. destruct H as [-> [S1 S2 S3 S4 S5 S6 S7]]. repeat split; congruence.
Qed.
