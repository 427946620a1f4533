(** Lemmas for C184: handlers as programs. *)
From Verif Require Import Bytes BytesProofs Parser Crypto Kdf Wire WireSeq Replay SpecReplay Server ServerSeq SpecServer ServerProps ServerProps2
  Keys Client ClientSeq SpecClient SpecE2E E2EProofs Handler SpecHandler.

Lemma got_app a b : got (a ++ b) = got a ++ got b.
Proof. unfold got. rewrite map_app, concat_app. reflexivity. Qed.

Lemma buf_read_eq n r b e r' : buf_read n r = ((b, e), r') ->
  b ++ r' = r /\ lenN b <= n /\ (e = true <-> r = [] /\ 0 < n) /\ (b = [] -> n = 0 \/ e = true).
Proof.
  destruct r as [|y r]; cbn [buf_read]; intro H.
  - assert (b = [] /\ e = (0 <? n) /\ r' = []) as (-> & -> & ->) by (repeat split; congruence). split; [reflexivity|]. split; [apply N.le_0_l|].
    destruct (N.ltb_spec 0 n); split; [split; auto|auto|split; [discriminate|intros [_ X]; lia]|intros _; left; lia].
  - assert (b = takeN n (y :: r) /\ e = false /\ r' = dropN n (y :: r)) as (-> & -> & ->) by (repeat split; congruence).
    split; [apply takeN_dropN|]. split.
    { rewrite takeN_len. apply N.le_min_l. }
    split; [split; [discriminate|intros [X _]; discriminate]|].
    intros X. left. apply (f_equal (fun x => lenN x)) in X. rewrite takeN_len, lenN_cons in X. change (lenN []) with 0 in X. lia.
Qed.

Lemma hrun_io : forall fuel reply h m w x t, hrun fuel reply h m w = Some (x, t) ->
  (exists rest, got t ++ rest = m) /\
  (forall t1 n b eof t2, t = t1 ++ EGot n b eof :: t2 -> lenN b <= n /\ (eof = true <-> got t1 = m /\ 0 < n) /\ (b = [] -> n = 0 \/ eof = true)) /\
  (forall b n err, In (EPut b n err) t -> n = lenN b /\ err = false) /\
  (forall out, x = HOk out -> out = if reply then w ++ written t else w) /\
  exists t0, t = t0 ++ [match x with HOk _ => EEnd true | HErr => EEnd false | HPanic => EThrow end].
Proof.
  induction fuel as [|f IH]; intros reply h m w x t H; [discriminate|]. cbn [hrun] in H. destruct h as [[|]| |n k|b k].
  1,2,3: injection H as <- <-; split; [exists m; reflexivity|]; split; [intros [|? [|? ?]] ? ? ? ? X; discriminate|]; split; [intros ? ? ? [X|[]]; discriminate|];
    (split; [|exists []; reflexivity]); intros out E; try discriminate; assert (w = out) as -> by congruence; unfold written; cbn; rewrite app_nil_r; destruct reply; reflexivity.
  - destruct (buf_read n m) as [[b e] r'] eqn:B. apply buf_read_eq in B as (B1 & B2 & B3 & B4).
    destruct (hrun f reply (k (b, e)) r' w) as [[x' t']|] eqn:R; [|discriminate]. injection H as -> <-.
    destruct (IH _ _ _ _ _ _ R) as ((rest & I1) & I2 & I3 & I4 & t0 & I5). split.
    { exists rest. change (got (EGot n b e :: t')) with (b ++ got t'). rewrite <- app_assoc, I1. exact B1. }
    split; [|split; [|split]].
    + intros [|a t1] n0 b0 e0 t2 X; cbn [app] in X.
      * injection X as -> -> -> _. split; [exact B2|]. split; [|exact B4]. rewrite B3. change (got []) with (@nil byte). split; intros [Y Z]; auto.
      * injection X as <- X. destruct (I2 _ _ _ _ _ X) as (J1 & J2 & J3). split; [exact J1|]. split; [|exact J3]. rewrite J2.
        change (got (EGot n b e :: t1)) with (b ++ got t1). rewrite <- B1. split; intros [Y Z]; (split; [|exact Z]).
        -- rewrite Y. reflexivity.
        -- apply app_inv_head in Y. exact Y.
    + intros b0 n0 er [X|X]; [discriminate|]. eapply I3, X.
    + exact I4.
    + exists (EGot n b e :: t0). rewrite I5 at 1. reflexivity.
  - cbn [out_write] in H. destruct (hrun f reply (k (lenN b, false)) m _) as [[x' t']|] eqn:R; [|discriminate]. injection H as -> <-.
    destruct (IH _ _ _ _ _ _ R) as ((rest & I1) & I2 & I3 & I4 & t0 & I5). split; [exists rest; exact I1|]. split; [|split; [|split]].
    + intros [|a t1] n0 b0 e0 t2 X; cbn [app] in X; [discriminate|]. injection X as <- X. exact (I2 _ _ _ _ _ X).
    + intros b0 n0 er [X|X]; [injection X as <- <- <-; auto|eapply I3, X].
    + intros out X. rewrite (I4 out X). destruct reply; [|reflexivity]. change (written (EPut b (lenN b) false :: t')) with (b ++ written t').
      rewrite app_assoc. reflexivity.
    + exists (EPut b (lenN b) false :: t0). rewrite I5 at 1. reflexivity.
Qed.

Lemma handler_io h reply m x t : runs h reply m x t ->
  (exists rest, got t ++ rest = m) /\
  (forall t1 n b eof t2, t = t1 ++ EGot n b eof :: t2 -> lenN b <= n /\ (eof = true <-> got t1 = m /\ 0 < n) /\ (b = [] -> n = 0 \/ eof = true)) /\
  (forall b n err, In (EPut b n err) t -> n = lenN b /\ err = false) /\
  (forall out, x = HOk out -> out = if reply then written t else []) /\
  exists t0, t = t0 ++ [match x with HOk _ => EEnd true | HErr => EEnd false | HPanic => EThrow end].
Proof. intros (fuel & H). exact (hrun_io _ _ _ _ _ _ _ H). Qed.

(** The flag cannot be told. *)
Definition strip (x : hres) : hres := match x with HOk _ => HOk [] | HErr => HErr | HPanic => HPanic end.
Lemma hrun_flag : forall fuel h m w, match hrun fuel true h m w with
  | Some (x, t) => hrun fuel false h m [] = Some (strip x, t)
  | None => hrun fuel false h m [] = None
  end.
Proof.
  induction fuel as [|f IH]; intros h m w; [reflexivity|]. cbn [hrun]. destruct h as [[|]| |n k|b k]; try reflexivity.
  - destruct (buf_read n m) as [[b e] r']. specialize (IH (k (b, e)) r' w). destruct (hrun f true _ _ _) as [[x t]|]; rewrite IH; reflexivity.
  - cbn [out_write]. specialize (IH (k (lenN b, false)) m (w ++ b)). destruct (hrun f true _ _ _) as [[x t]|]; rewrite IH; reflexivity.
Qed.
Lemma hrun_more : forall fuel reply h m w y, hrun fuel reply h m w = Some y -> hrun (S fuel) reply h m w = Some y.
Proof.
  induction fuel as [|f IH]; intros reply h m w y H; [discriminate|]. remember (S f) as g. cbn [hrun]. subst g. cbn [hrun] in H.
  destruct h as [[|]| |n k|b k]; try exact H.
  - destruct (buf_read n m) as [[b e] r']. destruct (hrun f reply (k (b, e)) r' w) as [[x t]|] eqn:R; [|discriminate]. rewrite (IH _ _ _ _ _ R). exact H.
  - destruct (out_write reply w b) as [[c e] w']. destruct (hrun f reply (k (c, e)) m w') as [[x t]|] eqn:R; [|discriminate]. rewrite (IH _ _ _ _ _ R). exact H.
Qed.
Lemma hrun_le a b reply h m w y : (a <= b)%nat -> hrun a reply h m w = Some y -> hrun b reply h m w = Some y.
Proof. induction 1; auto. intro. apply hrun_more. auto. Qed.
Lemma runs_fun h reply m x t x' t' : runs h reply m x t -> runs h reply m x' t' -> x = x' /\ t = t'.
Proof.
  intros (a & A) (b & B). apply (hrun_le _ (a + b)) in A; [|lia]. apply (hrun_le _ (a + b)) in B; [|lia]. split; congruence.
Qed.
Lemma flag_hidden h m x t : runs h true m x t -> forall x' t', runs h false m x' t' -> t' = t /\ x' = strip x.
Proof.
  intros (a & A) x' t' R. pose proof (hrun_flag a h m []) as F. rewrite A in F.
  destruct (runs_fun _ _ _ _ _ _ _ R (ex_intro _ a F)). auto.
Qed.

(** Two handlers as one writes them. *)
Lemma echo_step n : echo n = HGet n (fun r => let '(b, eof) := r in if eof then HEnd true else HPut b (fun _ => echo n)).
Proof. match goal with |- ?x = _ => transitivity (match x with HEnd a => HEnd a | HThrow => HThrow | HGet n k => HGet n k | HPut b k => HPut b k end) end;
  [destruct (echo n); reflexivity|reflexivity]. Qed.
Lemma collect_step n f m : collect n f m = HGet n (fun r => let '(b, eof) := r in if eof then HPut (f m) (fun _ => HEnd true) else collect n f (m ++ b)).
Proof. match goal with |- ?x = _ => transitivity (match x with HEnd a => HEnd a | HThrow => HThrow | HGet n k => HGet n k | HPut b k => HPut b k end) end;
  [destruct (collect n f m); reflexivity|reflexivity]. Qed.

Lemma buf_read_some n y r : 0 < n -> exists b r', buf_read n (y :: r) = ((b, false), r') /\ b ++ r' = y :: r /\ (length r' < length (y :: r))%nat.
Proof.
  intro Hn. cbn [buf_read]. eexists _, _. split; [reflexivity|]. split; [apply takeN_dropN|].
  pose proof (takeN_dropN n (y :: r)) as T. apply (f_equal (@length byte)) in T. rewrite app_length in T.
  assert (X : lenN (takeN n (y :: r)) <> 0) by (rewrite takeN_len, lenN_cons; lia). unfold lenN in X. lia.
Qed.
Lemma echo_ends n : 0 < n -> forall k m w, (length m <= k)%nat -> exists fuel t, hrun fuel true (echo n) m w = Some (HOk (w ++ m), t).
Proof.
  intro Hn. induction k as [|k IH]; intros [|y m] w Hk.
  - exists 2%nat. eexists. rewrite echo_step. cbn [hrun buf_read]. apply N.ltb_lt in Hn. rewrite Hn, app_nil_r. reflexivity.
  - cbn in Hk. lia.
  - exists 2%nat. eexists. rewrite echo_step. cbn [hrun buf_read]. apply N.ltb_lt in Hn. rewrite Hn, app_nil_r. reflexivity.
  - destruct (buf_read_some n y m Hn) as (b & r' & B & E & Hl). destruct (IH r' (w ++ b)) as (fuel & t & H); [cbn in *; lia|].
    exists (S (S fuel)). rewrite echo_step. cbn [hrun]. rewrite B. cbn [out_write]. rewrite H. eexists. rewrite <- E, app_assoc. reflexivity.
Qed.
Lemma collect_ends n f : 0 < n -> forall k m a w, (length m <= k)%nat -> exists fuel t, hrun fuel true (collect n f a) m w = Some (HOk (w ++ f (a ++ m)), t).
Proof.
  intro Hn. induction k as [|k IH]; intros [|y m] a w Hk.
  - exists 3%nat. eexists. rewrite collect_step. cbn [hrun buf_read]. apply N.ltb_lt in Hn. rewrite Hn, app_nil_r. reflexivity.
  - cbn in Hk. lia.
  - exists 3%nat. eexists. rewrite collect_step. cbn [hrun buf_read]. apply N.ltb_lt in Hn. rewrite Hn, app_nil_r. reflexivity.
  - destruct (buf_read_some n y m Hn) as (b & r' & B & E & Hl). destruct (IH r' (a ++ b) w) as (fuel & t & H); [cbn in *; lia|].
    exists (S fuel). rewrite collect_step. cbn [hrun]. rewrite B, H. eexists. rewrite <- E, <- app_assoc. reflexivity.
Qed.
Lemma echo_runs n : 0 < n -> forall m, exists t, runs (echo n) true m (HOk m) t.
Proof. intros Hn m. destruct (echo_ends n Hn _ m [] (le_n _)) as (fuel & t & H). exists t, fuel. exact H. Qed.
Lemma collect_runs n f : 0 < n -> forall m, exists t, runs (collect n f []) true m (HOk (f m)) t.
Proof. intros Hn m. destruct (collect_ends n f Hn _ m [] [] (le_n _)) as (fuel & t & H). exists t, fuel. exact H. Qed.

(** At the server. *)
Lemma reply_written C E s host id msg rest ctr reply h :
  (forall i m, exists t, runs (h i) reply m (e_handler E i reply m) t) ->
  request_ok (RqProcess id ctr msg reply) -> s_in s = enc_request (RqProcess id ctr msg reply) ++ rest ->
  e_quit E (s_step s) = false -> e_host E = Some host -> writes_all E ->
  forall ses hist, known C s host id = Some ses -> Forall (fun c => c < two64) hist -> snd (checks new_window hist) = ses_win ses ->
  wf s -> ~ refused_after hist ctr -> forall key, new_gcm C (ses_secret ses) = Some key ->
  forall pt, gcm_open C key (gcm_nonce dir_c2s ctr) msg = Some pt ->
  let '(res, s') := srun C E (conn_body C) s in
  (exists p, s_calls s' = s_calls s ++ [(p, ctr, reply, pt)]) /\
  exists i x t, runs (h i) reply pt x t /\ (exists unread, got t ++ unread = pt) /\
  match last t EThrow with
  | EEnd true => (if reply then responded s s' (RsProcess ctr (gcm_seal C key (gcm_nonce dir_s2c ctr) (written t))) else silent s s') /\ res = Some true
  | EEnd false => (exists e, responded s s' (RsError 2 e)) /\ res = Some true
  | _ => silent s s' /\ res = None
  end.
Proof.
  intros Hr Hok Hin Hq Hh W ses hist Hk Hhist Hwin Hwf Hfr key Hkey pt Hopen.
  pose proof (process_accepted C E s host id msg rest ctr reply Hok Hin Hq Hh ses hist Hk Hhist Hwin Hwf Hfr key Hkey pt Hopen) as P.
  destruct (srun C E (conn_body C) s) as [res s']. destruct P as (P1 & _ & _ & i & P2). split; [exact P1|].
  destruct (Hr i pt) as (t & Ht). exists i, (e_handler E i reply pt), t. split; [exact Ht|].
  destruct (handler_io _ _ _ _ _ Ht) as (H1 & _ & _ & H4 & t0 & H5). split; [exact H1|].
  assert (Hl : last t EThrow = match e_handler E i reply pt with HOk _ => EEnd true | HErr => EEnd false | HPanic => EThrow end) by (rewrite H5; apply last_last).
  rewrite Hl.
  destruct (e_handler E i reply pt) as [out| |].
  - specialize (H4 out eq_refl). destruct reply; [|exact P2]. subst out. destruct P2 as [_ P2]. exact (P2 W).
  - destruct P2 as [A B]. auto.
  - exact P2.
Qed.

Lemma handler_talk C CE SE o chost h (f : bytes -> bytes) : CryptoLaws C ->
  c_works CE -> writes_all SE -> (forall i, e_quit SE i = false) -> e_host SE = Some chost -> co_reply o = true ->
  (forall i m, exists t, runs h true m (e_handler SE i true m) t) -> (forall m, exists t, runs h true m (HOk (f m)) t) ->
  forall ses n ps hist cs ss,
  paired C ses chost hist cs ss -> Forall (fun c => c <= c_ctr cs) hist -> c_ctr cs + lenN ps < two64 ->
  Forall (fun p => lenN p + 16 <= 2 ^ 30 /\ f p <> [] /\ lenN (f p) + 16 <= 2 ^ 30 /\ lenN (f p) <= n) ps ->
  let '(rs, cs', ss') := rounds C CE SE o ses n ps cs ss in
  rs = map (fun p => Some (RdOk (f p) true)) ps /\ map snd (s_calls ss') = map snd (s_calls ss) ++ ps.
Proof.
  intros L WC W Q Hh Ho Hr Hf ses n ps hist cs ss P Hle Hlt Hps.
  pose proof (e2e_rounds C CE SE o chost L WC W Q Hh Ho ses n f ps hist cs ss P Hle Hlt) as R.
  destruct (rounds C CE SE o ses n ps cs ss) as [[rs cs'] ss']. destruct R as (R1 & R2 & _); auto.
  - eapply Forall_impl; [|exact Hps]. cbn. tauto.
  - intros i p Hp. rewrite Forall_forall in Hps. destruct (Hps p Hp) as (_ & A).
    destruct (Hr i p) as (t & T). destruct (Hf p) as (t' & T'). destruct (runs_fun _ _ _ _ _ _ _ T T') as [-> _]. auto.
Qed.
Lemma echo_talk C CE SE o chost k : CryptoLaws C ->
  c_works CE -> writes_all SE -> (forall i, e_quit SE i = false) -> e_host SE = Some chost -> co_reply o = true -> 0 < k ->
  (forall i m, exists t, runs (echo k) true m (e_handler SE i true m) t) ->
  forall ses n ps hist cs ss,
  paired C ses chost hist cs ss -> Forall (fun c => c <= c_ctr cs) hist -> c_ctr cs + lenN ps < two64 ->
  Forall (fun p => p <> [] /\ lenN p + 16 <= 2 ^ 30 /\ lenN p <= n) ps ->
  let '(rs, cs', ss') := rounds C CE SE o ses n ps cs ss in
  rs = map (fun p => Some (RdOk p true)) ps /\ map snd (s_calls ss') = map snd (s_calls ss) ++ ps.
Proof.
  intros L WC W Q Hh Ho Hk Hr ses n ps hist cs ss P Hle Hlt Hps.
  apply (handler_talk C CE SE o chost (echo k) (fun m => m) L WC W Q Hh Ho Hr (echo_runs k Hk) ses n ps hist cs ss P Hle Hlt).
  eapply Forall_impl; [|exact Hps]. cbn. tauto.
Qed.
