(** Lemmas for C182: several goroutines that read from one client. *)
From Verif Require Import Bytes BytesProofs Parser ParserProofs Crypto Kdf Wire WireProofs WireSeq Server Keys Client ClientSeq SpecClient ClientProofs SpecReaders.

Section Turns.
  Variables (C : Crypto) (E : cenv).
  Context {A : Type}.
  Notation turns := (turns C E A).
  Notation turn := (turn C E A).

  Lemma turns_app l1 : forall l2 ps s, turns (l1 ++ l2) ps s = let '(ps', s') := turns l1 ps s in turns l2 ps' s'.
  Proof.
    induction l1 as [|i l1 IH]; intros l2 ps s; cbn [app SpecReaders.turns]; [reflexivity|].
    destruct (nth_error ps i); [|apply IH]. destruct (turn _ _). apply IH.
  Qed.
  Lemma set_nth_get i p : forall ps, (i < length ps)%nat -> nth_error (set_nth A i p ps) i = Some p.
  Proof. induction i as [|i IH]; intros [|x ps] H; cbn in *; try lia; [reflexivity|]. apply IH. lia. Qed.
  Lemma set_nth_other i j p : forall ps, i <> j -> nth_error (set_nth A i p ps) j = nth_error ps j.
  Proof. revert j. induction i as [|i IH]; intros [|j] [|x ps] H; cbn; try congruence; try reflexivity. apply IH. congruence. Qed.
  Lemma set_nth_len i p : forall ps, length (set_nth A i p ps) = length ps.
  Proof. induction i as [|i IH]; intros [|x ps]; cbn; auto. Qed.
  Lemma set_nth_twice i p q : forall ps, set_nth A i p (set_nth A i q ps) = set_nth A i p ps.
  Proof. induction i as [|i IH]; intros [|x ps]; cbn; try reflexivity. rewrite IH. reflexivity. Qed.
  Lemma set_nth_same i p : forall ps, nth_error ps i = Some p -> set_nth A i p ps = ps.
  Proof. induction i as [|i IH]; intros [|x ps] H; cbn in *; try congruence. rewrite IH by exact H. reflexivity. Qed.

  (** A goroutine that has all the turns gets through the first part of its program. *)
  Lemma turns_part {B} (q : cprog B) : forall (f : B -> cprog A) b s s' ps i, crun C E q s = (Some b, s') ->
    nth_error ps i = Some (cbind q f) -> exists k, turns (repeat i k) ps s = (set_nth A i (f b) ps, s').
  Proof.
    induction q as [b0| |R e k IH]; intros f b s s' ps i H Hn; cbn [crun] in H.
    - injection H as <- <-. exists 0%nat. cbn. rewrite set_nth_same by exact Hn. reflexivity.
    - discriminate.
    - destruct (cexec C E e s) as [r s1] eqn:X.
      assert (Hi : (i < length ps)%nat) by (apply nth_error_Some; congruence).
      destruct (IH r f b s1 s' (set_nth A i (cbind (k r) f) ps) i H (set_nth_get _ _ _ Hi)) as (n & Y).
      exists (S n). cbn [repeat SpecReaders.turns]. rewrite Hn. cbn [cbind SpecReaders.turn]. rewrite X. rewrite Y, set_nth_twice. reflexivity.
  Qed.
  Lemma cbind_ret (q : cprog A) s : crun C E (cbind q (fun b => CRet b)) s = crun C E q s.
  Proof. rewrite crun_bind. destruct (crun C E q s) as [[a|] s']; reflexivity. Qed.
  Lemma turns_all (q : cprog A) : forall a s s' ps i, crun C E q s = (Some a, s') ->
    nth_error ps i = Some q -> exists k, turns (repeat i k) ps s = (set_nth A i (CRet a) ps, s').
  Proof.
    induction q as [b0| |R e k IH]; intros b s s' ps i H Hn; cbn [crun] in H.
    - injection H as <- <-. exists 0%nat. cbn. rewrite set_nth_same by exact Hn. reflexivity.
    - discriminate.
    - destruct (cexec C E e s) as [r s1] eqn:X.
      assert (Hi : (i < length ps)%nat) by (apply nth_error_Some; congruence).
      destruct (IH r b s1 s' (set_nth A i (k r) ps) i H (set_nth_get _ _ _ Hi)) as (n & Y).
      exists (S n). cbn [repeat SpecReaders.turns]. rewrite Hn. cbn [SpecReaders.turn]. rewrite X. rewrite Y, set_nth_twice. reflexivity.
  Qed.

  (** A block in which the goroutine ends is a run of its program. *)
  Lemma block_run i k : forall ps s p, nth_error ps i = Some p ->
    let '(ps', s') := turns (repeat i k) ps s in
    exists p', ps' = set_nth A i p' ps /\ crun C E p s = crun C E p' s'.
  Proof.
    induction k as [|k IH]; intros ps s p Hn; cbn [repeat SpecReaders.turns].
    { exists p. rewrite set_nth_same by exact Hn. auto. }
    rewrite Hn. destruct (turn p s) as [p1 s1] eqn:T.
    assert (Hi : (i < length ps)%nat) by (apply nth_error_Some; congruence).
    specialize (IH (set_nth A i p1 ps) s1 p1 (set_nth_get _ _ _ Hi)). destruct (turns (repeat i k) _ s1) as [ps' s'].
    destruct IH as (p' & -> & R). exists p'. rewrite set_nth_twice. split; [reflexivity|]. rewrite <- R.
    destruct p as [a| |R' e kk]; cbn in T; [injection T as <- <-; reflexivity|injection T as <- <-; reflexivity|].
    cbn [crun]. destruct (cexec C E e s). injection T as <- <-. reflexivity.
  Qed.
  Lemma turns_skip i l : forall ps s, ~ In i l -> nth_error (fst (turns l ps s)) i = nth_error ps i.
  Proof.
    induction l as [|j l IH]; intros ps s H; cbn [SpecReaders.turns]; [reflexivity|].
    destruct (nth_error ps j); [|apply IH; intro; apply H; right; assumption]. destruct (turn _ _) as [p' s'].
    rewrite IH by (intro; apply H; right; assumption). apply set_nth_other. intros ->. apply H. left. reflexivity.
  Qed.
  Lemma in_blocks_in i bs : In i (in_blocks bs) -> In i (map fst bs).
  Proof.
    unfold in_blocks. rewrite in_concat. intros (l & H1 & H2). apply in_map_iff in H1 as ((j & k) & <- & H1).
    apply repeat_spec in H2. cbn in H2. subst. apply in_map_iff. exists (j, k). auto.
  Qed.
End Turns.

(** * Two Reads on one reply *)
Lemma be_enc_head n : be_enc 8 n = be_enc 5 (n / 2 ^ 24) ++ be_enc 3 n.
Proof.
  change (2 ^ 24) with (256 * (256 * 256)). rewrite <- !N.div_div by discriminate. cbn [be_enc]. rewrite <- !app_assoc. reflexivity.
Qed.
Lemma be_dec_app a b : be_dec (a ++ b) = be_dec a * 256 ^ lenN b + be_dec b.
Proof.
  induction b as [|x b IH] using rev_ind.
  - rewrite app_nil_r. unfold be_dec at 3. cbn. lia.
  - rewrite app_assoc, !be_dec_app1, IH, lenN_app. change (lenN [x]) with 1. rewrite N.pow_add_r. lia.
Qed.

Lemma swallow C E o ses n s c t : c_works E -> c_buf s = [] -> 1 <= c < 2 ^ 23 -> lenN t + 3 < 2 ^ 40 -> forall l,
  c_in s = be_enc 8 c ++ be_enc 8 l ++ t ->
  exists e s', crun C E (client_read C o ses n) s = (Some (RdErr (RdParse e)), s') /\ c_in s' = [] /\ c_buf s' = [] /\ c_ctr s' = c_ctr s /\ c_last s' = c_last s.
Proof.
  intros W Hb Hc Ht l Hin. change (client_read C o ses n) with
    (cbind (if co_rto o then cdo CDeadline else CRet true) (read_after_deadline C ses n)).
  destruct (deadline_ok C E W (co_rto o) (read_after_deadline C ses n) s) as (s1 & -> & Hi & Hs & Hc1 & Hll & Hbf & Hse).
  unfold read_after_deadline. cbn [negb]. rewrite crun_do. cbn [cexec fst snd]. rewrite Hbf, Hb.
  change (0 <? lenN []) with false. cbv iota. rewrite crun_bind, crun_lift, Hi, Hin.
  rewrite (be_enc_head c), (be_enc_head l), N.div_small by lia. change (be_enc 5 0) with (x00 :: repeat x00 4).
  rewrite <- !app_assoc. cbn [app].
  match goal with |- context [run parse_resp_common (x00 :: ?r)] => destruct (resp_fwd x00 r (ce_end E)) as (rc & R & Hsu & Hrc) end.
  rewrite R. cbn [fst snd]. rewrite Hsu. change (128 <=? b2n x00) with false. cbn [negb].
  rewrite crun_bind, crun_lift. cbn [c_in c_set_in].
  set (p := repeat x00 4). set (q := be_enc 3 c ++ be_enc 5 (l / 2 ^ 24)). set (r := be_enc 3 l ++ t).
  assert (Hq : be_dec q = c * 2 ^ 40 + be_dec (be_enc 5 (l / 2 ^ 24))).
  { unfold q. rewrite be_dec_app, be_enc_lenN, be_dec_enc_small by (change (256 ^ N.of_nat 3) with (2 ^ 24); lia). reflexivity. }
  pose proof (be_dec_bound (be_enc 5 (l / 2 ^ 24))) as B. rewrite be_enc_lenN in B. change (256 ^ N.of_nat 5) with (2 ^ 40) in B.
  assert (Hr : lenN r < 2 ^ 40) by (unfold r; rewrite lenN_app, be_enc_lenN; lia).
  assert (P : exists e, run (parse_error_resp rc) (p ++ q ++ r) (ce_end E) = (inl e, [])).
  { unfold parse_error_resp. rd. rewrite run_bind, ParserProofs.run_pread.
    2: { unfold q. rewrite lenN_app, !be_enc_lenN. reflexivity. }
    destruct (N.ltb_spec 0 (be_dec q)); [|lia]. cbn [run]. unfold limit_of_size.
    destruct (N.ltb_spec (be_dec q) two63); [|unfold two63 in *; lia]. unfold fl_copy.
    destruct (N.leb_spec (be_dec q) (lenN r)); [lia|]. destruct (ce_end E); cbn [run andb].
    - destruct (N.eqb_spec (lenN r) (be_dec q)); [lia|]. eexists. reflexivity.
    - eexists. reflexivity. }
  destruct P as (e & P).
  match goal with |- context [run (parse_error_resp rc) ?st _] =>
    assert (Y : st = p ++ q ++ r) by (unfold p, q, r; rewrite <- !app_assoc; reflexivity); rewrite Y end.
  rewrite P. cbn [fst snd crun]. do 2 eexists. split; [reflexivity|]. cbn. repeat split; congruence.
Qed.

Section Two.
  Variables (C : Crypto) (E : cenv) (o : copts) (ses : csession).
  Hypothesis W : c_works E.
  Notation turns := (turns C E rd_result).
  Notation rd := (client_read C o ses).

  (** The first Read gets as far as the first octet, the second takes the rest. *)
  Lemma reply_torn n1 n2 s c ct rest : c_buf s = [] -> 1 <= c < 2 ^ 23 -> lenN ct + lenN rest + 3 < 2 ^ 40 ->
    c_in s = enc_response (RsProcess c ct) ++ rest ->
    exists sched e1 e2 s', turns sched [rd n1; rd n2] s = ([CRet (RdErr e1); CRet (RdErr e2)], s') /\ c_in s' = [] /\ c_buf s' = [].
  Proof.
    intros Hb Hc Hl Hin.
    destruct (deadline_ok C E W (co_rto o) (@CRet bool) s) as (s1 & D & Hi & Hs & Hc1 & Hll & Hbf & Hse). cbn [crun] in D.
    rewrite cbind_ret in D.
    destruct (turns_part C E (if co_rto o then cdo CDeadline else CRet true) (read_after_deadline C ses n1) true s s1 [rd n1; rd n2] 0%nat D eq_refl) as (k1 & T1).
    cbn [set_nth] in T1.
    set (g := fun rc => match rc with
      | inl e => CRet (RdErr (RdParse e))
      | inr rc => if negb (rs_success rc) then cbind (clift (parse_error_resp rc)) (fun er =>
            match er with inl e => CRet (RdErr (RdParse e)) | inr er => CRet (RdErr (RdRemote (er_code er) (er_msg er))) end)
          else cbind (clift (parse_process_resp rc)) (fun r =>
            match r with
            | inl e => CRet (RdErr (RdParse e))
            | inr r => cbind (cdo CGetLast) (fun last =>
                if negb (ps_counter r =? last) then CRet (RdErr RdCounter)
                else match client_gcm C (cs_secret ses) with
                  | None => CRet (RdErr RdKey)
                  | Some key => match gcm_open C key (gcm_nonce dir_s2c (ps_counter r)) (ps_msg r) with
                      | None => CRet (RdErr RdDecrypt)
                      | Some message => cbind (cdo CGetBuf) (fun buf => cbind (cdo (CSetBuf (buf ++ message))) (fun _ => cbind (cdo CGetBuf) (fun buf => read_buffered buf n1)))
                      end
                  end)
            end)
      end).
    assert (T2 : turns [0%nat] [read_after_deadline C ses n1 true; rd n2] s1 = ([cbind (clift parse_resp_common) g; rd n2], s1)).
    { unfold read_after_deadline. cbn [SpecReaders.turns nth_error negb cbind cdo SpecReaders.turn cexec set_nth]. rewrite Hbf, Hb. reflexivity. }
    change (enc_response (RsProcess c ct)) with (x80 :: be_enc 8 c ++ be_enc 8 (lenN ct) ++ ct) in Hin. cbn [app] in Hin.
    destruct (resp_fwd x80 ((be_enc 8 c ++ be_enc 8 (lenN ct) ++ ct) ++ rest) (ce_end E)) as (rc & R & Hsu & Hrc).
    assert (X : crun C E (clift parse_resp_common) s1 = (Some (inr rc), c_set_in s1 ((be_enc 8 c ++ be_enc 8 (lenN ct) ++ ct) ++ rest))).
    { rewrite crun_lift, Hi, Hin, R. reflexivity. }
    destruct (turns_part C E _ g _ _ _ [cbind (clift parse_resp_common) g; rd n2] 0%nat X eq_refl) as (k2 & T3). cbn [set_nth] in T3.
    set (s2 := c_set_in s1 _) in *.
    destruct (swallow C E o ses n2 s2 c (ct ++ rest) W) with (l := lenN ct) as (e2 & s3 & R2 & I2 & B2 & _ & _).
    { cbn. congruence. } { exact Hc. } { rewrite lenN_app. lia. } { unfold s2. cbn [c_in c_set_in]. rewrite <- !app_assoc. reflexivity. }
    destruct (turns_all C E (rd n2) _ _ _ [g (inr rc); rd n2] 1%nat R2 eq_refl) as (k3 & T4). cbn [set_nth] in T4.
    assert (Z : exists e1, crun C E (g (inr rc)) s3 = (Some (RdErr e1), c_set_in s3 [])).
    { unfold g. rewrite Hsu. change (128 <=? b2n x80) with true. cbn [negb]. rewrite crun_bind, crun_lift, I2. unfold parse_process_resp, pread.
      cbn [pbind run]. unfold fl_read. change (8 <=? lenN []) with false. cbn [pbind run fst snd crun]. destruct (ce_end E); cbn; eexists; reflexivity. }
    destruct Z as (e1 & Z).
    destruct (turns_all C E (g (inr rc)) _ _ _ [g (inr rc); CRet (RdErr (RdParse e2))] 0%nat Z eq_refl) as (k4 & T5). cbn [set_nth] in T5.
    exists (repeat 0%nat k1 ++ [0%nat] ++ repeat 0%nat k2 ++ repeat 1%nat k3 ++ repeat 0%nat k4), e1, (RdParse e2), (c_set_in s3 []).
    rewrite turns_app, T1, turns_app, T2, turns_app, T3, turns_app, T4, T5. split; [reflexivity|]. split; [reflexivity|exact B2].
  Qed.

  (** Both look at the buffer before either has taken anything from it. *)
  Lemma buffered_twice n1 n2 s : c_buf s <> [] ->
    exists sched e1 e2 s', turns sched [rd n1; rd n2] s = ([CRet (RdOk (takeN n1 (c_buf s)) e1); CRet (RdOk (takeN n2 (c_buf s)) e2)], s').
  Proof.
    intros Hb. set (b := c_buf s) in *.
    assert (Hlen : 0 <? lenN b = true) by (apply N.ltb_lt; destruct b; [congruence|rewrite lenN_cons; lia]).
    assert (ST : forall n i ps s0, c_buf s0 = b -> nth_error ps i = Some (rd n) -> exists k s0', c_buf s0' = b /\
      turns (repeat i k) ps s0 = (set_nth rd_result i (read_buffered b n) ps, s0')).
    { intros n i ps s0 Hb0 Hn.
      destruct (deadline_ok C E W (co_rto o) (@CRet bool) s0) as (s1 & D & Hi & Hs & Hc1 & Hll & Hbf & Hse). cbn [crun] in D. rewrite cbind_ret in D.
      destruct (turns_part C E (if co_rto o then cdo CDeadline else CRet true) (read_after_deadline C ses n) true s0 s1 ps i D Hn) as (k & T).
      exists (k + 1)%nat, s1. split; [congruence|]. rewrite repeat_app, turns_app, T. cbn [repeat SpecReaders.turns].
      rewrite set_nth_get by (apply nth_error_Some; congruence). unfold read_after_deadline. cbn [negb cbind cdo SpecReaders.turn cexec].
      rewrite Hbf, Hb0, Hlen, set_nth_twice. reflexivity. }
    assert (FI : forall n s0, exists e s0', crun C E (read_buffered b n) s0 = (Some (RdOk (takeN n b) e), s0')).
    { intros n s0. unfold read_buffered, buffer_read. destruct b as [|x b']; [congruence|]. do 2 eexists. reflexivity. }
    destruct (ST n1 0%nat [rd n1; rd n2] s eq_refl eq_refl) as (k1 & s1 & B1 & T1). cbn [set_nth] in T1.
    destruct (ST n2 1%nat [read_buffered b n1; rd n2] s1 B1 eq_refl) as (k2 & s2 & B2 & T2). cbn [set_nth] in T2.
    destruct (FI n1 s2) as (e1 & s3 & F1). destruct (FI n2 s3) as (e2 & s4 & F2).
    destruct (turns_all C E _ _ _ _ [read_buffered b n1; read_buffered b n2] 0%nat F1 eq_refl) as (k3 & T3). cbn [set_nth] in T3.
    destruct (turns_all C E _ _ _ _ [CRet (RdOk (takeN n1 b) e1); read_buffered b n2] 1%nat F2 eq_refl) as (k4 & T4). cbn [set_nth] in T4.
    exists (repeat 0%nat k1 ++ repeat 1%nat k2 ++ repeat 0%nat k3 ++ repeat 1%nat k4), e1, e2, s4.
    rewrite turns_app, T1, turns_app, T2, turns_app, T3, T4. reflexivity.
  Qed.

  (** Reads that take turns are the Reads of one goroutine. *)
  Lemma one_at_a_time ns : forall bs s ps, NoDup (map fst bs) ->
    (forall b, In b bs -> exists n, nth_error ns (fst b) = Some n /\ nth_error ps (fst b) = Some (rd n)) ->
    let '(ps', s') := turns (in_blocks bs) ps s in
    (forall b, In b bs -> exists r, nth_error ps' (fst b) = Some (CRet r)) ->
    exists rs, reads C E o ses (map (fun b => nth (fst b) ns 0) bs) s = (map Some rs, s') /\
      Forall2 (fun b r => nth_error ps' (fst b) = Some (CRet r)) bs rs.
  Proof.
    induction bs as [|[i k] bs IH]; intros s ps Hnd Hps.
    { cbn. intros _. exists []. split; [reflexivity|constructor]. }
    cbn [map in_blocks concat fst snd]. change (concat (map (fun b => repeat (fst b) (snd b)) bs)) with (in_blocks bs).
    inversion Hnd as [|? ? Hni Hnd']; subst.
    destruct (Hps (i, k) (or_introl eq_refl)) as (n & Hn & Hp). cbn [fst] in Hn, Hp.
    pose proof (block_run C E i k ps s _ Hp) as BR. rewrite turns_app.
    destruct (turns (repeat i k) ps s) as [ps1 s1]. destruct BR as (p' & -> & R).
    specialize (IH s1 (set_nth rd_result i p' ps) Hnd').
    pose proof (turns_skip C E i (in_blocks bs) (set_nth rd_result i p' ps) s1) as SK.
    destruct (turns (in_blocks bs) (set_nth rd_result i p' ps) s1) as [ps2 s2]. cbn [fst] in SK.
    intros Hend. destruct (Hend (i, k) (or_introl eq_refl)) as (r & Hr). cbn [fst] in Hr.
    assert (Hi : (i < length ps)%nat) by (apply nth_error_Some; congruence).
    rewrite SK, set_nth_get in Hr by (auto; intro X; apply Hni, in_blocks_in, X). injection Hr as ->. cbn [crun] in R.
    destruct IH as (rs & R2 & F).
    { intros b Hin. destruct (Hps b (or_intror Hin)) as (n' & X1 & X2). exists n'. split; [exact X1|]. rewrite set_nth_other; [exact X2|].
      intros ->. apply Hni, in_map, Hin. }
    { intros b Hin. apply Hend. right. exact Hin. }
    exists (r :: rs). split; [|constructor; [|exact F]].
    - cbn [reads map]. rewrite (nth_error_nth _ _ _ Hn), R, R2. reflexivity.
    - cbn [fst]. rewrite SK, set_nth_get by (auto; intro X; apply Hni, in_blocks_in, X). reflexivity.
  Qed.
End Two.

Lemma readers_in_turn : forall C E o ses ns bs s, NoDup (map fst bs) -> Forall (fun b => (fst b < length ns)%nat) bs ->
  let '(ps, s') := turns C E rd_result (in_blocks bs) (map (client_read C o ses) ns) s in
  (forall b, In b bs -> exists r, nth_error ps (fst b) = Some (CRet r)) ->
  exists rs, reads C E o ses (map (fun b => nth (fst b) ns 0) bs) s = (map Some rs, s') /\
    Forall2 (fun b r => nth_error ps (fst b) = Some (CRet r)) bs rs.
Proof.
  intros C E o ses ns bs s Hnd Hl. apply (one_at_a_time C E o ses ns bs s _ Hnd).
  intros b Hb. rewrite Forall_forall in Hl. specialize (Hl b Hb). destruct (nth_error ns (fst b)) as [n|] eqn:X; [|apply nth_error_None in X; lia].
  exists n. split; [reflexivity|]. apply map_nth_error, X.
Qed.
