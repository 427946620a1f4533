From Verif Require Import Bytes Resources SpecResources.

Lemma drop_new (l : list nat) n : (forall k, In k l -> (k < n)%nat) -> filter (fun x => negb (Nat.eqb x n)) (n :: l) = l.
Proof.
  intros H. cbn [filter]. rewrite Nat.eqb_refl. cbn. induction l as [|x l IH]; [reflexivity|]. cbn [filter].
  destruct (Nat.eqb_spec x n) as [->|]; [specialize (H n (or_introl eq_refl)); lia|]. cbn. f_equal. apply IH. intros k K. apply H. right. exact K.
Qed.

Lemma dial_tcp_leak E s : numbered s -> (forall i, de_keepalive E i = true) ->
  let '(r, s') := drun E dial_tcp s in
  match r with
  | None => d_open s' = d_open s
  | Some (w, k) => w = TCP /\ d_open s' = k :: d_open s /\ ~ In k (d_open s)
  end.
Proof.
  intros Nb K. unfold dial_tcp, with_handshake, dial_tcp_raw. cbn.
  destruct (de_resolve E (d_step s)); cbn; [|reflexivity]. destruct (de_connect E (S (d_step s))); cbn; [|reflexivity].
  rewrite K. cbn. destruct (de_talk E _); cbn.
  - split; [reflexivity|]. split; [reflexivity|]. intros I. specialize (Nb _ I). lia.
  - pose proof (drop_new (d_open s) (d_next s) Nb) as D. cbn [filter] in D. rewrite Nat.eqb_refl in *. cbn in D. exact D.
Qed.
Lemma dial_tcp_leaks : exists E s, numbered s /\ fst (drun E dial_tcp s) = None /\ d_open (snd (drun E dial_tcp s)) <> d_open s.
Proof.
  exists {| de_resolve := fun _ => true; de_connect := fun _ => true; de_keepalive := fun _ => false; de_talk := fun _ => true; de_close := fun _ => true |},
    {| d_step := 0; d_next := 0; d_open := [] |}. split; [intros k []|]. split; [reflexivity|discriminate].
Qed.
Lemma dial_udp_leaks E s : fst (drun E dial_udp s) = None -> (forall i, de_resolve E i = true) -> (forall i, de_connect E i = true) ->
  exists k, d_open (snd (drun E dial_udp s)) = k :: d_open s.
Proof.
  unfold dial_udp, with_handshake, dial_udp_raw. cbn. intros H R Cn. rewrite R in *. cbn in *. rewrite Cn in *. cbn in *.
  destruct (de_talk E _); cbn in *; [discriminate H|]. eauto.
Qed.
Lemma fetch_clean E b s : numbered s -> d_open (snd (drun E (fetch_over b) s)) = d_open s.
Proof.
  intros Nb. unfold fetch_over. destruct b; cbn; [|reflexivity]. destruct (de_resolve E (d_step s)); cbn; [|reflexivity].
  destruct (de_connect E (S (d_step s))); cbn; [|reflexivity].
  pose proof (drop_new (d_open s) (d_next s) Nb) as D. cbn [filter] in D. rewrite Nat.eqb_refl in *. cbn in D. exact D.
Qed.

Lemma dial_udp_fails E s : (forall i, de_resolve E i = true) -> (forall i, de_connect E i = true) -> (forall i, de_talk E i = false) ->
  fst (drun E dial_udp s) = None.
Proof. intros R Cn T. unfold dial_udp, with_handshake, dial_udp_raw. cbn. rewrite R. cbn. rewrite Cn. cbn. rewrite T. reflexivity. Qed.
Lemma dials_udp E n : (forall i, de_resolve E i = true) -> (forall i, de_connect E i = true) -> (forall i, de_talk E i = false) ->
  forall s, length (d_open (dials E dial_udp n s)) = (n + length (d_open s))%nat.
Proof.
  intros R Cn T. induction n as [|n IH]; intros s; cbn [dials]; [reflexivity|]. rewrite IH.
  destruct (dial_udp_leaks E s (dial_udp_fails E s R Cn T) R Cn) as (k & ->). cbn. lia.
Qed.

(** ** Servers *)
Lemma server_clean s : gnum s -> exists m s', new_server None s = GOk m s' /\ g_running (close_server m s') = g_running s.
Proof.
  intros G. unfold new_server, new_memory_manager. cbn. eexists _, _. split; [reflexivity|].
  pose proof (drop_new (g_running s) (g_next s) G) as D. cbn [filter] in D. rewrite Nat.eqb_refl in *. cbn in *. rewrite Nat.eqb_refl. exact D.
Qed.
Lemma server_leaks : forall m s, gnum s -> match m with MMemory (Some g) => In g (g_running s) | _ => True end ->
  exists s', new_server (Some m) s = GOk m s' /\ exists g, ~ In g (g_running s) /\ In g (g_running (close_server m s')).
Proof.
  intros m s G I. unfold new_server, new_memory_manager. cbn. eexists. split; [reflexivity|]. exists (g_next s).
  split; [intros X; specialize (G _ X); lia|]. destruct m as [|[g|]]; cbn; auto.
  destruct (Nat.eqb_spec (g_next s) g) as [<-|]; [specialize (G _ I); lia|]. cbn. auto.
Qed.
Lemma manager_made gc ttl s : new_memory_manager gc ttl s <> GCrash <-> (ttl <= 0 \/ 0 < gc)%Z.
Proof.
  unfold new_memory_manager. destruct (Z.ltb_spec 0 ttl), (Z.ltb_spec 0 gc); split; intros H1; try discriminate; try lia; congruence.
Qed.

Lemma pool_dial_clean E b s : numbered s -> (forall i, de_keepalive E i = true) ->
  let '(r, s') := drun E (pool_dial b) s in
  match r with
  | None => d_open s' = d_open s
  | Some (w, k) => w = TCP /\ d_open s' = k :: d_open s /\ ~ In k (d_open s)
  end.
Proof.
  intros Nb K. destruct b; [|exact (dial_tcp_leak E s Nb K)]. unfold pool_dial, dial_tcp_raw. cbn.
  destruct (de_resolve E (d_step s)); cbn; [|reflexivity]. destruct (de_connect E (S (d_step s))); cbn; [|reflexivity].
  rewrite K. cbn. split; [reflexivity|]. split; [reflexivity|]. intros I. specialize (Nb _ I). lia.
Qed.
Lemma dial_fails_leak :
  (exists E s, numbered s /\ fst (drun E dial_tcp s) = None /\ d_open (snd (drun E dial_tcp s)) <> d_open s) /\
  (forall E n, (forall i, de_resolve E i = true) -> (forall i, de_connect E i = true) -> (forall i, de_talk E i = false) ->
   forall s, fst (drun E dial_udp s) = None /\ length (d_open (dials E dial_udp n s)) = (n + length (d_open s))%nat).
Proof. split; [exact dial_tcp_leaks|]. intros E n R Cn T s. split; [apply dial_udp_fails; assumption|apply dials_udp; assumption]. Qed.
Lemma bad_interval : exists gc ttl, forall s, new_memory_manager gc ttl s = GCrash.
Proof. exists 0%Z, 900000000000%Z. reflexivity. Qed.
Lemma shared_stops g s : gnum s -> In g (g_running s) ->
  exists s1 s2, new_server (Some (MMemory (Some g))) s = GOk (MMemory (Some g)) s1 /\ new_server (Some (MMemory (Some g))) s1 = GOk (MMemory (Some g)) s2 /\
  ~ In g (g_running (close_server (MMemory (Some g)) s2)).
Proof.
  intros G I. unfold new_server, new_memory_manager. cbn -[filter]. eexists _, _. split; [reflexivity|]. split; [reflexivity|].
  intros X. apply filter_In in X as [_ X]. rewrite Nat.eqb_refl in X. discriminate X.
Qed.
