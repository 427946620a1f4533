From Verif Require Import Bytes BytesProofs Parser Crypto Wire WireSeq Replay Server ServerSeq SpecServer ServerProps3 Keys Client ClientSeq Udp SpecUdp.

Lemma split_at {A} n (a b : list A) : lenN a = N.min n (lenN (a ++ b)) -> takeN n (a ++ b) = a /\ dropN n (a ++ b) = b.
Proof.
  intros H. rewrite lenN_app in H. destruct (N.le_gt_cases (lenN a + lenN b) n) as [L|L].
  - assert (lenN b = 0) by lia. assert (b = []) as -> by (destruct b; [reflexivity|rewrite lenN_cons in *; lia]).
    rewrite app_nil_r. unfold takeN, dropN. assert (lenN a <= n) by lia. apply N.leb_le in H1. rewrite H1. auto.
  - assert (E : lenN a = n) by lia. split; [apply takeN_app, E|apply dropN_app, E].
Qed.
Lemma take_take {A} k n (l : list A) : k <= n ->
  takeN k l ++ takeN (n - lenN (takeN k l)) (dropN k l) = takeN n l /\
  dropN (n - lenN (takeN k l)) (dropN k l) = dropN n l.
Proof.
  intros L. set (m := n - lenN (takeN k l)).
  assert (E : l = (takeN k l ++ takeN m (dropN k l)) ++ dropN m (dropN k l)) by (rewrite <- app_assoc, !takeN_dropN; reflexivity).
  assert (H : lenN (takeN k l ++ takeN m (dropN k l)) = N.min n (lenN l)).
  { rewrite lenN_app, !takeN_len, dropN_len. unfold m. rewrite takeN_len. lia. }
  rewrite E in H at 3. apply split_at in H as [H1 H2]. rewrite <- E in H1, H2. auto.
Qed.

Lemma udp_take_flat chunk : forall fuel n u net, u_read u = true -> (length (u_rbuf u) < fuel)%nat ->
  udp_take chunk fuel n (u, net) =
  ((takeN n (u_rbuf u), if n <=? lenN (u_rbuf u) then None else Some REof), (u_set_rbuf u (dropN n (u_rbuf u)), net)).
Proof.
  induction fuel as [|f IH]; [lia|]. intros n u net Hr Hf. cbn [udp_take].
  destruct (N.eqb_spec n 0) as [->|Hn].
  { replace (0 <=? lenN (u_rbuf u)) with true by (symmetry; apply N.leb_le; lia).
    rewrite takeN_0. replace (dropN 0 (u_rbuf u)) with (u_rbuf u); [destruct u; reflexivity|].
    pose proof (takeN_dropN 0 (u_rbuf u)) as H. rewrite takeN_0 in H. symmetry. exact H. }
  set (k := N.min n (N.max 1 (chunk f))). assert (Hk : 0 < k <= n) by lia. clearbody k.
  unfold udp_read1. cbn [fst]. rewrite Hr. unfold buf_read. destruct (u_rbuf u) as [|b r] eqn:Eb.
  { replace (n <=? lenN []) with false by (symmetry; apply N.leb_gt; change (lenN []) with 0; lia).
    replace (takeN n (@nil byte)) with (@nil byte) by (destruct n; reflexivity).
    replace (dropN n (@nil byte)) with (@nil byte) by (destruct n; reflexivity). rewrite <- Eb.
    destruct u. cbn in *. rewrite Eb. reflexivity. }
  rewrite <- Eb in *. destruct (take_take k n (u_rbuf u) (proj2 Hk)) as [T1 T2].
  rewrite IH; cbn [u_set_rbuf u_rbuf u_read].
  - rewrite T1, T2. rewrite dropN_len, takeN_len. f_equal. f_equal.
    destruct (N.leb_spec (n - N.min k (lenN (u_rbuf u))) (lenN (u_rbuf u) - k)), (N.leb_spec n (lenN (u_rbuf u))); try reflexivity; exfalso; lia.
  - exact Hr.
  - assert (lenN (dropN k (u_rbuf u)) < lenN (u_rbuf u)) by (rewrite dropN_len, Eb, lenN_cons; lia). unfold lenN in H. lia.
Qed.

Lemma udp_fuel_enough u net : (length (u_rbuf u) < udp_fuel (u, net))%nat.
Proof. unfold udp_fuel. lia. Qed.
Lemma udp_readfull_flat chunk n u net : u_read u = true ->
  udp_readfull chunk n (u, net) =
  (fst (fl_read n (u_rbuf u) EndEOF), (u_set_rbuf u (snd (fl_read n (u_rbuf u) EndEOF)), net)).
Proof.
  intros Hr. unfold udp_readfull. rewrite (udp_take_flat chunk _ n u net Hr (udp_fuel_enough u net)). unfold fl_read.
  destruct (N.leb_spec n (lenN (u_rbuf u))); [reflexivity|]. cbn [fst snd]. unfold dropN.
  replace (lenN (u_rbuf u) <=? n) with true by (symmetry; apply N.leb_le; lia). reflexivity.
Qed.
Lemma udp_copy_flat chunk n u net : u_read u = true ->
  udp_copy chunk n (u, net) =
  (fst (fl_copy n (u_rbuf u) EndEOF), (u_set_rbuf u (snd (fl_copy n (u_rbuf u) EndEOF)), net)).
Proof.
  intros Hr. unfold udp_copy. rewrite (udp_take_flat chunk _ n u net Hr (udp_fuel_enough u net)). unfold fl_copy.
  destruct (N.leb_spec n (lenN (u_rbuf u))); [reflexivity|]. cbn [fst snd]. unfold dropN, takeN.
  replace (lenN (u_rbuf u) <=? n) with true by (symmetry; apply N.leb_le; lia). reflexivity.
Qed.

(** A request program run on a connection that holds a datagram does what it does
    on a stream that consists of the datagram, and touches no socket. *)
Lemma urun_flat C E hostof chunk send A (p : sprog A) : forall u net s, u_read u = true -> u_buffered u = true ->
  exists r u' s' l, urun C E hostof chunk send p (u, net) s = (r, ((u', net), s')) /\
    srun C (dgram_env E (hostof (u_addr u))) p (set_in s (u_rbuf u)) = (r, set_in s' (u_rbuf u')) /\
    u_read u' = true /\ u_buffered u' = true /\ u_addr u' = u_addr u /\
    s_sent s' = s_sent s ++ l /\ u_wbuf u' = u_wbuf u ++ wire l /\
    Forall (fun x => snd x = lenN (fst x)) l.
Proof.
  induction p as [a| |R e k IH]; intros u net s Hr Hb.
  - exists (Some a), u, s, []. cbn. rewrite !app_nil_r. repeat split; auto.
  - exists None, u, s, []. cbn. rewrite !app_nil_r. repeat split; auto.
  - assert (G : forall r u1 s1 l1, uexec C E hostof chunk send e (u, net) s = (r, ((u1, net), s1)) ->
      sexec C (dgram_env E (hostof (u_addr u))) e (set_in s (u_rbuf u)) = (r, set_in s1 (u_rbuf u1)) ->
      u_read u1 = true -> u_buffered u1 = true -> u_addr u1 = u_addr u -> s_sent s1 = s_sent s ++ l1 -> u_wbuf u1 = u_wbuf u ++ wire l1 ->
      Forall (fun x => snd x = lenN (fst x)) l1 ->
      exists r u' s' l, urun C E hostof chunk send (SDo e k) (u, net) s = (r, ((u', net), s')) /\
        srun C (dgram_env E (hostof (u_addr u))) (SDo e k) (set_in s (u_rbuf u)) = (r, set_in s' (u_rbuf u')) /\
        u_read u' = true /\ u_buffered u' = true /\ u_addr u' = u_addr u /\
        s_sent s' = s_sent s ++ l /\ u_wbuf u' = u_wbuf u ++ wire l /\ Forall (fun x => snd x = lenN (fst x)) l).
    { intros r u1 s1 l1 X1 X2 X3 X4 X5 X6 X7 X8. destruct (IH r u1 net s1 X3 X4) as (r' & u' & s' & l' & Y1 & Y2 & Y3 & Y4 & Y5 & Y6 & Y7 & Y8).
      exists r', u', s', (l1 ++ l'). cbn [urun srun]. rewrite X1, X2. split; [exact Y1|]. rewrite <- X5. split; [exact Y2|].
      repeat split; auto.
      - rewrite Y6, X6, app_assoc. reflexivity.
      - rewrite Y7, X7. unfold wire. rewrite map_app, concat_app, app_assoc. reflexivity.
      - apply Forall_app. auto. }
    destruct e.
    + (* SRead *)
      apply (G (fst (fl_read n (u_rbuf u) EndEOF)) (u_set_rbuf u (snd (fl_read n (u_rbuf u) EndEOF))) s []); auto;
        try (cbn; rewrite ?app_nil_r; reflexivity).
      * cbn. rewrite (udp_readfull_flat chunk n u net Hr). reflexivity.
      * cbn [sexec dgram_env e_end set_in s_in]. destruct (fl_read n (u_rbuf u) EndEOF). reflexivity.
    + apply (G (fst (fl_copy n (u_rbuf u) EndEOF)) (u_set_rbuf u (snd (fl_copy n (u_rbuf u) EndEOF))) s []); auto;
        try (cbn; rewrite ?app_nil_r; reflexivity).
      * cbn. rewrite (udp_copy_flat chunk n u net Hr). reflexivity.
      * cbn [sexec dgram_env e_end set_in s_in]. destruct (fl_copy n (u_rbuf u) EndEOF). reflexivity.
    + apply (G tt u s []); auto; cbn; rewrite ?app_nil_r; reflexivity.
    + (* SWrite *)
      apply (G (lenN b, None) (u_set_wbuf u (u_wbuf u ++ b)) (add_sent (tick s) b (lenN b)) [(b, lenN b)]); auto.
      * cbn. rewrite Hb. reflexivity.
      * cbn. rewrite N.min_id. reflexivity.
      * cbn. unfold wire. cbn. rewrite takeN_all, app_nil_r. reflexivity.
    + apply (G (hostof (u_addr u)) u s []); auto; cbn; rewrite ?app_nil_r; reflexivity.
    + apply (G (e_gen E (s_step s)) u (tick s) []); auto; cbn; rewrite ?app_nil_r; reflexivity.
    + eapply (G _ u _ []); auto; try reflexivity; cbn; rewrite ?app_nil_r; reflexivity.
    + destruct (e_store E (s_step s)) eqn:X.
      * apply (G true u (set_map (tick s) key p) []); auto; cbn; rewrite ?X, ?app_nil_r; reflexivity.
      * apply (G false u (tick s) []); auto; cbn; rewrite ?X, ?app_nil_r; reflexivity.
    + apply (G (s_map s key) u s []); auto; cbn; rewrite ?app_nil_r; reflexivity.
    + apply (G (ses_secret (s_heap s p)) u s []); auto; cbn; rewrite ?app_nil_r; reflexivity.
    + destruct (check_and_update (ses_win (s_heap s p)) c) as [r w] eqn:X.
      apply (G r u (set_session s p {| ses_secret := ses_secret (s_heap s p); ses_win := w |}) []); auto; cbn; rewrite ?X, ?app_nil_r; reflexivity.
    + apply (G (e_handler E (s_step s) reply msg) u (add_call (tick s) (p, c, reply, msg)) []); auto; cbn; rewrite ?app_nil_r; reflexivity.
    + apply (G (gcm_seal C key nonce pt) u s []); auto; cbn; rewrite ?app_nil_r; reflexivity.
    + apply (G (e_sign E (s_step s) h content) u (tick s) []); auto; cbn; rewrite ?app_nil_r; reflexivity.
    + apply (G (e_fetch E (s_step s)) u (tick s) []); auto; cbn; rewrite ?app_nil_r; reflexivity.
    + apply (G (e_quit E (s_step s)) u (tick s) []); auto; cbn; rewrite ?app_nil_r; reflexivity.
Qed.

Lemma set_in_in s a b : set_in (set_in s a) b = set_in s b. Proof. reflexivity. Qed.

(** One exchange. *)
Lemma exchange_flat C E hostof chunk send n s a d q : n_closed n = false -> n_in n = (a, d) :: q ->
  exists r s1 l ok n' s',
    udp_exchange C E hostof chunk send n s = (Some (r, ok), (n', s')) /\
    srun C (dgram_env E (hostof a)) (one_request C) (set_in s d) = (r, s1) /\
    set_in s' (s_in s1) = s1 /\ s_sent s1 = s_sent s ++ l /\ Forall (fun x => snd x = lenN (fst x)) l /\
    n_in n' = q /\ n_closed n' = false /\
    ((wire l = [] /\ n_out n' = n_out n /\ ok = true) \/
     (wire l <> [] /\ ok = send (n_step n) (wire l) /\ n_out n' = n_out n ++ (if ok then [(Some a, wire l)] else []))).
Proof.
  intros Hc Hi. unfold udp_exchange, udp_receive. rewrite Hc, Hi.
  set (u := {| u_read := true; u_addr := a; u_rbuf := d; u_wbuf := u_wbuf (new_udp true); u_buffered := u_buffered (new_udp true) |}).
  set (net := {| n_in := q; n_out := n_out n; n_step := n_step n; n_closed := false |}).
  destruct (urun_flat C E hostof chunk send _ (one_request C) u net s eq_refl eq_refl) as (r & u' & s' & l & H1 & H2 & H3 & H4 & H5 & H6 & H7 & H8).
  rewrite H1. cbn [u u_addr u_rbuf] in H2, H5. cbn in H7.
  exists r, (set_in s' (u_rbuf u')), l. unfold udp_close. rewrite H7, H5.
  destruct (wire l) as [|x w] eqn:W.
  - exists true, net, s'. repeat split; auto.
  - unfold net_send. cbn [n_closed net negb andb n_step n_in n_out]. exists (send (n_step n) (x :: w)).
    eexists. exists s'. split; [reflexivity|]. repeat split; auto. right. split; [discriminate|]. split; [reflexivity|].
    destruct (send (n_step n) (x :: w)); [reflexivity|rewrite app_nil_r; reflexivity].
Qed.

(** * Results about a connection's loop, for a single request *)
Definition shift (k : nat) (E : senv) : senv := {|
  e_host := e_host E; e_end := e_end E; e_write := fun i => e_write E (pred i); e_gen := fun i => e_gen E (pred i);
  e_store := fun i => e_store E (pred i); e_handler := fun i => e_handler E (pred i); e_sign := fun i => e_sign E (pred i);
  e_fetch := fun i => e_fetch E (pred i); e_quit := fun i => if Nat.eqb i k then false else e_quit E (pred i) |}.
Lemma srun_shift k0 C E A (p : sprog A) : forall s, (k0 <= s_step s)%nat ->
  srun C (shift k0 E) p (tick s) = (fst (srun C E p s), tick (snd (srun C E p s))).
Proof.
  induction p as [a| |R e k IH]; intros s Hs; [reflexivity|reflexivity|]. cbn [srun].
  assert (H : sexec C (shift k0 E) e (tick s) = (fst (sexec C E e s), tick (snd (sexec C E e s))) /\ (k0 <= s_step (snd (sexec C E e s)))%nat).
  { destruct e; cbn [sexec shift e_end e_write e_host e_gen e_store e_handler e_sign e_fetch e_quit tick s_in s_step s_heap s_map s_next pred];
      try (split; [reflexivity|cbn; lia]).
    - destruct (fl_read n (s_in s) (e_end E)). split; [reflexivity|cbn; lia].
    - destruct (fl_copy n (s_in s) (e_end E)). split; [reflexivity|cbn; lia].
    - destruct (e_write E (s_step s) b). split; [reflexivity|cbn; lia].
    - destruct (e_store E (s_step s)); (split; [reflexivity|cbn; lia]).
    - destruct (check_and_update (ses_win (s_heap s p)) c). split; [reflexivity|cbn; lia].
    - destruct (Nat.eqb_spec (S (s_step s)) k0); [lia|]. split; [reflexivity|cbn; lia]. }
  destruct H as [-> H]. destruct (sexec C E e s) as [r s1]. cbn [fst snd] in *. apply IH, H.
Qed.
Lemma one_request_conn C E s :
  srun C (shift (s_step s) E) (conn_body C) s = (fst (srun C E (one_request C) s), tick (snd (srun C E (one_request C) s))).
Proof.
  unfold conn_body. cbn [sbind sdo srun sexec shift e_quit]. rewrite Nat.eqb_refl.
  apply (srun_shift (s_step s) C E _ (one_request C) s). lia.
Qed.
