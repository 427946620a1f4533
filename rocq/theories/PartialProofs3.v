(** Lemmas for the true parts of C21, C50, C74, C75 and C90. *)
From Verif Require Import Bytes BytesProofs Parser Crypto Kdf Wire WireSeq Replay SpecReplay ReplayProofs Server ServerSeq SpecServer ServerProofs
  ServerProps ServerProps2 ServerProps3 Keys Client ClientSeq SpecClient ClientProofs ClientProps Timed SpecTimed TimedProofs TimedClient.

(** ** C21 *)
Lemma window_63 hist c : Forall (fun x => x < 2 ^ 64) hist -> c < 2 ^ 64 ->
  let '(rs, w) := checks new_window hist in
  let seen := accepted hist rs in
  c <> 0 -> ~ In c seen -> (forall x, In x seen -> x <= c + 63) -> fst (check_and_update w c) = true.
Proof.
  intros Hh Hc. pose proof (next_answer hist c Hh Hc) as N. destruct (checks new_window hist) as [rs w]. cbv zeta in *.
  intros H0 H1 H2. apply N. split; [exact H0|]. split; [exact H1|].
  revert H2. generalize (accepted hist rs). intros l. clear. induction l as [|x l IH]; intros H; [cbn; lia|].
  rewrite highest_cons. pose proof (H x (or_introl eq_refl)). specialize (IH (fun y Y => H y (or_intror Y))). lia.
Qed.

(** ** C50 *)
Lemma write_whole C E o ses p s n s' : (forall i b, snd (ce_write E i b) = false -> lenN b <= fst (ce_write E i b)) ->
  crun C E (client_write C o ses p) s = (Some (WrConn n false), s') ->
  exists key c ct, client_gcm C (cs_secret ses) = Some key /\ c = (c_ctr s + 1) mod 2 ^ 64 /\ c <> 0 /\
    ct = gcm_seal C key (x00 :: repeat x00 3 ++ be_enc 8 c) p /\
    c_sent s' = c_sent s ++ [(enc_request (RqProcess (cs_id ses) c ct (co_reply o)), lenN (enc_request (RqProcess (cs_id ses) c ct (co_reply o))))].
Proof.
  intros W. unfold client_write.
  set (k := fun ok : bool => _).
  assert (G : forall s1, c_ctr s1 = c_ctr s -> c_sent s1 = c_sent s -> crun C E (k true) s1 = (Some (WrConn n false), s') ->
    exists key c ct, client_gcm C (cs_secret ses) = Some key /\ c = (c_ctr s + 1) mod 2 ^ 64 /\ c <> 0 /\
    ct = gcm_seal C key (x00 :: repeat x00 3 ++ be_enc 8 c) p /\
    c_sent s' = c_sent s ++ [(enc_request (RqProcess (cs_id ses) c ct (co_reply o)), lenN (enc_request (RqProcess (cs_id ses) c ct (co_reply o))))]).
  { intros s1 Hc Hs. unfold k. cbn [negb]. destruct (client_gcm C (cs_secret ses)) as [key|]; [|discriminate].
    rewrite crun_do. cbn [cexec]. cbv zeta. cbn [fst snd]. rewrite Hc. set (c := (c_ctr s + 1) mod two64).
    destruct (N.eqb_spec c 0) as [E0|E0]; [discriminate|].
    rewrite crun_do. cbn [cexec fst snd]. rewrite crun_do. cbn [cexec fst snd]. rewrite crun_do. cbn [cexec].
    set (q := enc_process_req _). destruct (ce_write E _ q) as [m er] eqn:Ew. cbv zeta. cbn [fst snd crun].
    intros [= _ He Hs']. subst er. apply (f_equal c_sent) in Hs'.
    cbn [c_add_sent c_tick c_add_seal c_set_last c_set_ctr c_ctr c_in c_buf c_last c_seals c_sent] in Hs'.
    rewrite N.min_r in Hs' by (match type of Ew with ce_write E ?i ?b = _ => specialize (W i b); rewrite Ew in W; apply W; reflexivity end).
    exists key, c, (gcm_seal C key (gcm_nonce dir_c2s c) p). repeat split; [exact E0|]. rewrite <- Hs', Hs. reflexivity. }
  destruct (co_wto o).
  - rewrite crun_bind. unfold cdo. cbn [crun cexec fst snd]. destruct (ce_deadline E (c_step s)); cbn [negb].
    + apply G; reflexivity.
    + unfold k. cbn. discriminate.
  - cbn [cbind]. apply G; reflexivity.
Qed.

(** ** C74 *)
Lemma flag_harmless C E s i1 host id msg rest ctr f s2 :
  request_ok (RqProcess id ctr msg f) ->
  s_in s = enc_request (RqProcess id ctr msg f) ++ rest ->
  s2 = set_in s i1 -> i1 = enc_request (RqProcess id ctr msg (negb f)) ++ rest ->
  e_quit E (s_step s) = false -> e_host E = Some host ->
  forall ses hist, known C s host id = Some ses ->
  Forall (fun c => c < 2 ^ 64) hist -> snd (checks new_window hist) = ses_win ses ->
  wf s -> ~ refused_after hist ctr ->
  forall key, new_gcm C (ses_secret ses) = Some key ->
  forall pt, gcm_open C key (x00 :: repeat x00 3 ++ be_enc 8 ctr) msg = Some pt ->
  let '(_, a) := srun C E (conn_body C) s in
  let '(_, b) := srun C E (conn_body C) s2 in
  (exists p, s_calls a = s_calls s ++ [(p, ctr, f, pt)]) /\ (exists p, s_calls b = s_calls s ++ [(p, ctr, negb f, pt)]) /\
  same_sessions C a b /\ s_in a = s_in b.
Proof.
  intros Ok Hin -> -> Hq Hh ses hist K Hf Hw WF R key G pt O.
  pose proof (process_accepted C E s host id msg rest ctr f Ok Hin Hq Hh ses hist K Hf Hw WF R key G pt O) as A.
  assert (WF2 : wf (set_in s (enc_request (RqProcess id ctr msg (negb f)) ++ rest))) by (destruct WF; constructor; assumption).
  pose proof (process_accepted C E (set_in s (enc_request (RqProcess id ctr msg (negb f)) ++ rest)) host id msg rest ctr (negb f) Ok eq_refl Hq Hh ses hist K Hf Hw WF2 R key G pt O) as B.
  destruct (srun C E (conn_body C) s) as [ra a]. destruct (srun C E (conn_body C) (set_in _ _)) as [rb b].
  destruct A as (A1 & (A2 & A3) & A4 & _), B as (B1 & (B2 & B3) & B4 & _).
  split; [exact A1|]. split; [exact B1|]. split; [|congruence]. intros h i.
  destruct (list_eq_dec Byte.byte_eq_dec (session_key C h i) (session_key C host id)) as [e|n].
  - assert (X : forall z, known C z h i = known C z host id) by (intros z; unfold known; rewrite e; reflexivity).
    rewrite !X. congruence.
  - rewrite (A3 h i n), (B3 h i n). reflexivity.
Qed.

(** ** C75 *)
Lemma reads_skip C (L : CryptoLaws C) E o ses n oc key m : c_works E -> client_gcm C (cs_secret ses) = Some key -> m <> [] ->
  forall stale s, c_buf s = [] -> c_in s = concat stale ++ oc ->
  Forall (fun x => exists c ct, process_response_octets x c ct /\ c <> c_last s) stale ->
  process_response_octets oc (c_last s) (gcm_seal C key (x01 :: repeat x00 3 ++ be_enc 8 (c_last s)) m) ->
  fst (reads C E o ses (repeat n (length stale) ++ [n]) s) =
    map (fun _ => Some (RdErr RdCounter)) stale ++ [Some (RdOk (takeN n m) (lenN m <=? n))].
Proof.
  intros W K Hm. induction stale as [|x stale IH]; intros s Hb Hin Hst Ho; cbn [length repeat app map reads].
  - destruct (read_fresh_run C E o ses n s oc [] (c_last s) _ key W Hb ltac:(cbn in Hin; rewrite app_nil_r; exact Hin) Ho K) as (r & s1 & -> & _ & _ & B).
    rewrite N.eqb_refl in B. change (x01 :: repeat x00 3 ++ be_enc 8 (c_last s)) with (gcm_nonce dir_s2c (c_last s)) in B.
    rewrite (gcm_open_seal _ L) in B. destruct m; [congruence|]. destruct B as [-> _]. reflexivity.
  - inversion Hst as [|? ? (c & ct & P & Q) Hst']; subst. cbn [concat] in Hin. rewrite <- app_assoc in Hin.
    destruct (read_fresh_run C E o ses n s x (concat stale ++ oc) c ct key W Hb Hin P K) as (r & s1 & -> & I & (_ & _ & Hl & _) & B).
    apply N.eqb_neq in Q. rewrite Q in B. destruct B as [-> B].
    specialize (IH s1 B I). rewrite Hl in IH. specialize (IH Hst' Ho).
    destruct (reads C E o ses (repeat n (length stale) ++ [n]) s1) as [rs s2]. cbn [fst] in *. now rewrite IH.
Qed.
Lemma resync C (L : CryptoLaws C) E o ses n p stale oc key m s : c_works E -> client_gcm C (cs_secret ses) = Some key -> m <> [] ->
  c_buf s = [] -> c_in s = concat stale -> c_ctr s + 1 < 2 ^ 64 ->
  Forall (fun x => exists c ct, process_response_octets x c ct /\ c <= c_ctr s) stale ->
  process_response_octets oc (c_ctr s + 1) (gcm_seal C key (x01 :: repeat x00 3 ++ be_enc 8 (c_ctr s + 1)) m) ->
  let '(_, s1) := crun C E (client_write C o ses p) s in
  fst (reads C E o ses (repeat n (length stale) ++ [n]) (c_set_in s1 (c_in s1 ++ oc))) =
    map (fun _ => Some (RdErr RdCounter)) stale ++ [Some (RdOk (takeN n m) (lenN m <=? n))].
Proof.
  intros W K Hm Hb Hin Hlt Hst Ho. pose proof (write_ok_run C L E o ses p s key W K) as R. cbv zeta in R.
  destruct (crun C E (client_write C o ses p) s) as [r s1]. change two64 with (2 ^ 64) in R. rewrite (N.mod_small _ _ Hlt) in R.
  destruct R as (_ & R2 & R3 & [(R & _)|(_ & R4 & _)]); [lia|].
  apply (reads_skip C L E o ses n oc key m W K Hm stale).
  - cbn. congruence.
  - cbn. congruence.
  - cbn. eapply Forall_impl; [|exact Hst]. intros x (c & ct & P & Q). exists c, ct. split; [exact P|lia].
  - cbn. rewrite R4. exact Ho.
Qed.

(** ** C90 *)
Lemma latest_drop k : forall l, latest (skipn k l) <= latest l.
Proof.
  induction k as [|k IH]; intros [|x l]; cbn [skipn latest fold_right]; try lia. specialize (IH l). unfold latest in IH. lia.
Qed.
Lemma latest_firstn k : forall l, latest (firstn k l) <= latest l.
Proof. induction k as [|k IH]; intros [|x l]; unfold latest in *; cbn [firstn fold_right]; try lia. specialize (IH l). lia. Qed.
Lemma latest_dropN n l : latest (dropN n l) <= latest l.
Proof. unfold dropN. destruct (_ <=? _); [unfold latest; cbn [fold_right]; lia|apply latest_drop]. Qed.
Lemma latest_takeN n l : latest (takeN n l) <= latest l.
Proof. unfold takeN. destruct (_ <=? _); [lia|apply latest_firstn]. Qed.
(** When all that will come has come. *)
Definition all_in (t : tio) : N := N.max (latest (t_arr t)) (t_eof t).
Lemma t_wait_all n inp t : let t' := snd (t_wait n inp t) in t_now t' <= N.max (t_now t) (all_in t) /\ all_in t' <= all_in t /\ t_n t' = t_n t.
Proof.
  assert (D : due n inp t <= all_in t) by (unfold due, all_in; destruct (_ <=? _); [pose proof (latest_takeN n (t_arr t))|]; lia).
  unfold t_wait. destruct (n =? 0); [cbn; lia|].
  assert (X : forall k now, all_in (t_at t now (dropN k (t_arr t))) <= all_in t) by (intros k now; unfold all_in; cbn [t_at t_arr t_eof]; pose proof (latest_dropN k (t_arr t)); lia).
  destruct (t_rd t) as [d|]; [destruct (N.ltb_spec (N.max (t_now t) (due n inp t)) d)|]; cbn [snd]; (split; [cbn [t_at t_now]; lia|]); split; auto.
Qed.
Lemma tcexec_all C E delay dl {R} (e : ceff R) t s : match e with CDeadline => False | _ => True end ->
  let t' := fst (snd (tcexec C E delay dl e t s)) in
  t_now t' <= N.max (t_now t) (all_in t) + delay (t_n t) /\ all_in t' <= all_in t /\ t_n t' = S (t_n t).
Proof.
  intros ND.
  assert (G : forall t1, t_now t1 <= N.max (t_now t) (all_in t) /\ all_in t1 <= all_in t /\ t_n t1 = t_n t ->
    t_now (t_pass delay t1) <= N.max (t_now t) (all_in t) + delay (t_n t) /\ all_in (t_pass delay t1) <= all_in t /\ t_n (t_pass delay t1) = S (t_n t)).
  { intros t1 (A & B & D). cbn [t_pass t_now t_n]. rewrite D. split; [lia|]. split; [exact B|reflexivity]. }
  destruct e; unfold tcexec; try contradiction;
    try (match goal with |- context [t_wait ?n ?i ?t] => generalize (t_wait_all n i t); destruct (t_wait n i t) as [[k|] t1] end;
         intros A; cbn [fst snd] in *; apply G; exact A).
  all: cbn [fst snd]; repeat match goal with |- context [if ?b then _ else _] => destruct b end; cbn [fst snd]; apply G; repeat split; lia.
Qed.
Lemma tcrun_all C E delay dl {A} (p : cprog A) : nodl p -> forall t s, let t' := fst (snd (tcrun C E delay dl p t s)) in
  exists k, t_n t' = (t_n t + k)%nat /\ t_now t' <= N.max (t_now t) (all_in t) + spent delay (t_n t) k.
Proof.
  induction p as [a| |R e k IH]; intros ND t s; cbn [tcrun].
  - exists 0%nat. cbn. lia.
  - exists 0%nat. cbn. lia.
  - destruct ND as [ND1 ND2]. pose proof (tcexec_all C E delay dl e t s ND1) as K.
    destruct (tcexec C E delay dl e t s) as [r [t1 s1]]. cbn [fst snd] in K. destruct K as (K1 & K2 & K3).
    destruct (IH r (ND2 r) t1 s1) as (n & H1 & H2). cbn zeta in *. exists (S n). split; [lia|]. cbn [spent]. rewrite K3 in H2. lia.
Qed.
Lemma nodl_handshake C host : nodl (handshake C host).
Proof.
  unfold handshake. repeat first
  [ apply nodl_bind; [first [apply nodl_lift|cbn; auto; fail]|intros ?]
  | match goal with |- nodl (match ?x with _ => _ end) => destruct x end
  | match goal with |- nodl (if ?x then _ else _) => destruct x end
  | exact I ].
Qed.
Lemma handshake_ends C E delay rto wto host t s : let t' := fst (snd (timed_handshake C E delay rto wto host t s)) in
  exists k, t_n t' = (t_n t + k)%nat /\
  forall d, t_now t <= d -> t_eof t <= d -> Forall (fun a => a <= d) (t_arr t) -> t_now t' <= d + spent delay (t_n t) k.
Proof.
  cbv zeta. destruct (tcrun_all C E delay (fun t => t_set_wd wto (t_set_rd rto t)) _ (nodl_handshake C host) t s) as (k & K1 & K2).
  exists k. split; [exact K1|]. intros d D1 D2 D3. unfold timed_handshake.
  assert (X : all_in t <= d).
  { unfold all_in. apply N.max_lub; [|exact D2]. revert D3. generalize (t_arr t). intros l H. induction H; cbn; [lia|]. unfold latest in *. lia. }
  lia.
Qed.
