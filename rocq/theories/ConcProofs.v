From Verif Require Import Bytes BytesProofs Parser Crypto Kdf Wire WireSeq WireExtra Replay SpecReplay ReplayProofs
  Base64 Server ServerSeq SpecServer ServerProps ServerProps2 Conc SpecConc.

(** ** What an instance may do next, given what it did *)
Definition is_handler (x : ev) : bool := match x with EvHandler _ _ _ _ _ => true | _ => false end.
Definition is_seal (x : ev) : bool := match x with EvSeal _ _ _ _ _ _ => true | _ => false end.
Definition is_check (x : ev) : bool := match x with EvCheck _ _ _ => true | _ => false end.

Definition is_host (x : ev) : bool := match x with EvHost _ => true | _ => false end.

Definition is_sign (x : ev) : bool := match x with EvSign _ _ _ => true | _ => false end.
Definition is_gen (x : ev) : bool := match x with EvGen _ => true | _ => false end.
Definition is_new (x : ev) : bool := match x with EvNew _ _ => true | _ => false end.

(** What justifies handing response [r] to the transport. *)
Definition write_ok (C : Crypto) (h : list ev) (r : response) : Prop :=
  match r with
  | RsHello => True
  | RsError c m => In (c, m) error_texts
  | RsSetup spub ht sig => exists sk m, In (EvGen (Some sk)) h /\ spub = x_pub C sk /\ ht = 4 /\
      In (EvSign SHA512 m (KOk sig)) h
  | RsProcess c ct => exists p key pt, In (EvSeal p c key (gcm_nonce dir_s2c c) pt ct) h
  | RsFetchKey alg raw => exists pk, In (EvFetchKey (KOk (alg, pk))) h /\ pkix_marshal C pk = Some raw
  end.

Definition evok (C : Crypto) (h : list ev) (x : ev) : Prop :=
  match x with
  | EvRead _ => existsb is_host h = false
  | EvStore k p _ => exists host id sec pub sk, k = session_key C host id /\ setup_octets C (got h) id pub /\
      In (EvHost (Some host)) h /\ In (EvGen (Some sk)) h /\ In (EvNew p sec) h /\ x_dh C sk pub = Some sec
  | EvLoad k _ => exists host id reply c ct, k = session_key C host id /\ process_octets (got h) reply id c ct /\
      In (EvHost (Some host)) h
  | EvCheck p c _ => existsb is_check h = false /\
      exists host id reply ct, process_octets (got h) reply id c ct /\ In (EvHost (Some host)) h /\
        In (EvLoad (session_key C host id) (Some p)) h
  | EvSecret p _ => exists k, In (EvLoad k (Some p)) h
  | EvHandler p c reply m _ => In (EvCheck p c true) h /\ existsb is_handler h = false /\
      exists host id sec key ct, process_octets (got h) reply id c ct /\ In (EvHost (Some host)) h /\
        In (EvLoad (session_key C host id) (Some p)) h /\ In (EvSecret p sec) h /\
        new_gcm C sec = Some key /\ gcm_open C key (gcm_nonce dir_c2s c) ct = Some m
  | EvSeal p c key nonce pt ct => c < two64 /\ In (EvCheck p c true) h /\ existsb is_seal h = false /\
      nonce = gcm_nonce dir_s2c c /\ ct = gcm_seal C key nonce pt /\
      (exists m, In (EvHandler p c true m (HOk pt)) h) /\
      exists sec, In (EvSecret p sec) h /\ new_gcm C sec = Some key
  | EvSign hh m _ => hh = SHA512 /\ existsb is_sign h = false /\
      exists host id pub sk p sec, In (EvHost (Some host)) h /\ setup_octets C (got h) id pub /\ In (EvGen (Some sk)) h /\
        m = setup_transcript pub (x_pub C sk) id /\ In (EvNew p sec) h /\ x_dh C sk pub = Some sec /\
        In (EvStore (session_key C host id) p true) h
  | EvGen _ => existsb is_gen h = false
  | EvHost _ => existsb is_host h = false
  | EvNew _ _ => existsb is_new h = false
  | EvWrite b _ => exists r, b = enc_response r /\ write_ok C h r
  | _ => True
  end.

(** Answers as far as one instance can tell. *)
Definition lok (C : Crypto) {R} (e : seff R) : R -> Prop :=
  match e in seff R return R -> Prop with
  | SRead n => fun r => match r with inl _ => True | inr b => lenN b = n end
  | SCopy n => fun r => lenN (fst r) <= n
  | SSeal _ _ key nonce pt => fun r => r = gcm_seal C key nonce pt
  | _ => fun _ => True
  end.
Lemma ans_lok C host g {R} (e : seff R) r g' : ans C host g e r g' -> lok C e r.
Proof. destruct e; cbn; tauto. Qed.

Fixpoint safe (C : Crypto) {A} (p : sprog A) (h : list ev) : Prop :=
  match p with
  | SRet _ | SPanic => True
  | SDo e k => forall r, lok C e r -> evok C h (ev_of e r) /\ safe C (k r) (ev_of e r :: h)
  end.

Lemma safe_write_error C c t h : In (c, t) error_texts ->
  safe C (write_error_response (enc_error_resp (new_error_response c t))) h.
Proof.
  intros H. unfold write_error_response. cbn [sdo sbind safe]. intros [n er] _. split.
  - exists (RsError c t). split; [reflexivity|exact H].
  - destruct er; exact I.
Qed.
Lemma safe_error C c t h : In (c, t) error_texts -> safe C (reply_error c t) h.
Proof. apply safe_write_error. Qed.
Lemma safe_response C r b h : b = enc_response r -> write_ok C h r -> safe C (write_response b) h.
Proof.
  intros -> H. unfold write_response. cbn [sdo sbind safe]. intros [n er] _. split; [exists r; auto|].
  destruct er as [[|]|]; try exact I.
  destruct (0 <? n); [exact I|]. apply safe_write_error. left; reflexivity.
Qed.
Ltac find_in := match goal with
  | |- In _ error_texts => unfold error_texts; find_in
  | |- In ?a (?a :: _) => left; reflexivity
  | |- In _ (_ :: _) => right; find_in
  end.
Ltac err := apply safe_error; find_in.


(** Only reading so far. *)
Definition plain (x : ev) : bool := match x with EvRead _ | EvOther => true | _ => false end.
Definition clean (h : list ev) : Prop := forallb plain h = true.
Lemma clean_none f h : clean h -> (forall x, plain x = true -> f x = false) -> existsb f h = false.
Proof.
  unfold clean. intros H F. induction h as [|x h IH]; [reflexivity|]. cbn in *.
  apply andb_prop in H as [H1 H2]. rewrite (F x H1), IH by exact H2. reflexivity.
Qed.
Ltac none := cbn; (eapply clean_none; [eassumption|]; intros [] H; try discriminate H; reflexivity).
Ltac inh := first [left; reflexivity | right; inh].

Lemma safe_process_after C m h :
  process_octets (got h) (pr_reply m) (pr_id m) (pr_counter m) (pr_msg m) -> clean h ->
  safe C (process_after C m) h.
Proof.
  intros Po Cl. assert (Hc : pr_counter m < two64) by (destruct Po as (? & ? & _ & _ & H & _); exact H).
  unfold process_after. cbn [sdo sbind safe].
  intros [host|] _; cbn [ev_of]; (split; [none|]); [|err]. cbn [sdo sbind safe].
  intros sp _. split.
  { cbn [evok ev_of]. exists host, (pr_id m), (pr_reply m), (pr_counter m), (pr_msg m).
    split; [reflexivity|]. split; [exact Po|]. inh. }
  destruct sp as [p|]; [|err]. cbn [sdo sbind safe ev_of].
  intros fresh _. split.
  { cbn [evok]. split; [none|]. exists host, (pr_id m), (pr_reply m), (pr_msg m).
    split; [exact Po|]. split; inh. }
  destruct fresh; cbn [negb]; [|err]. cbn [sdo sbind safe ev_of].
  intros sec _. split; [cbn [evok]; eexists; right; left; reflexivity|].
  destruct (new_gcm C sec) as [key|] eqn:Ek; [|err].
  destruct (gcm_open C key (gcm_nonce dir_c2s (pr_counter m)) (pr_msg m)) as [pt|] eqn:Eo; [|err].
  cbn [sdo sbind safe ev_of]. intros hr _. split.
  { cbn [evok]. split; [inh|]. split; [none|].
    exists host, (pr_id m), sec, key, (pr_msg m). split; [exact Po|].
    split; [inh|]. split; [inh|]. split; [inh|]. auto. }
  destruct hr as [out| |]; [|err|exact I].
  destruct (pr_reply m); [|exact I]. cbn [sdo sbind safe ev_of lok]. intros ct Hct. split.
  { cbn [evok]. split; [exact Hc|]. split; [inh|]. split; [none|].
    split; [reflexivity|]. split; [exact Hct|]. split; [eexists; left; reflexivity|].
    exists sec. split; [inh|exact Ek]. }
  eapply (safe_response _ (RsProcess (pr_counter m) ct)); [reflexivity|].
  cbn [write_ok]. do 3 eexists. left; reflexivity.
Qed.

Lemma safe_setup_after C m h : setup_octets C (got h) (sr_id m) (sr_pub m) -> clean h -> safe C (setup_after C m) h.
Proof.
  intros So Cl. unfold setup_after. cbn [sdo sbind safe].
  intros [sk|] _; (split; [none|]); [|err].
  destruct (x_dh C sk (sr_pub m)) as [shared|] eqn:Ed; [|err]. cbn [sdo sbind safe].
  intros [host|] _; (split; [none|]); [|err]. cbn [sdo sbind safe].
  intros p _. split; [none|]. intros ok _. split.
  { cbn [evok ev_of]. exists host, (sr_id m), shared, (sr_pub m), sk. split; [reflexivity|]. split; [exact So|].
    split; [inh|]. split; [inh|]. split; [inh|exact Ed]. }
  destruct ok; cbn [negb]; [|err]. cbn [sdo sbind safe].
  intros sg _. split.
  { cbn [evok ev_of]. split; [reflexivity|]. split; [none|]. exists host, (sr_id m), (sr_pub m), sk, p, shared.
    split; [inh|]. split; [exact So|]. split; [inh|]. split; [reflexivity|]. split; [inh|]. split; [exact Ed|inh]. }
  destruct sg as [sig| |]; [|err|exact I].
  change (new_hash_type SHA512) with (Some 4). cbv iota.
  eapply (safe_response _ (RsSetup (x_pub C sk) 4 sig)); [reflexivity|].
  cbn [write_ok]. exists sk. eexists. split; [inh|]. split; [reflexivity|]. split; [reflexivity|].
  left; reflexivity.
Qed.

Lemma lenN16 (b : bytes) : lenN b = 16 -> length b = 16%nat.
Proof. unfold lenN. lia. Qed.
Lemma dec8 (b : bytes) : lenN b = 8 -> be_dec b < two64.
Proof. intros H. exact (be_dec_lt_len b 8 H). Qed.
Lemma enc_dec (b : bytes) n : lenN b = N.of_nat n -> be_enc n (be_dec b) = b.
Proof. intros H. apply be_enc_dec_len. unfold lenN in H. lia. Qed.
Lemma reply_bit (fb : byte) : (N.shiftr (N.land (b2n fb) 240) 7 =? 1) = (128 <=? b2n fb).
Proof. destruct fb; reflexivity. Qed.

Ltac rd := split; [try exact I; none|].

(** A failed read ends the parser, hence in an error reply. *)
Lemma safe_process_handler C rc h b0 :
  got h = [b0] -> N.land (b2n b0) 15 = 3 -> clean h -> safe C (process_handler C rc) h.
Proof.
  intros G B Cl. unfold process_handler, parse_process_req, pcopy1, pread, palloc.
  cbn [pbind slift sbind safe]. intros [f er] _. rd.
  destruct er as [er|]; [err|].
  destruct f as [|fb [|f2 fr]]; [err| |err].
  cbn [pbind slift sbind safe]. intros [er|id] Hid; rd; [err|].
  cbn [pbind slift sbind safe]. intros [er|cb] Hcb; rd; [err|].
  cbn [pbind slift sbind safe]. intros [er|sz] Hsz; rd; [err|].
  cbn [pbind slift sbind safe].
  destruct (max_message_size <? be_dec sz) eqn:Hmax; [err|].
  cbn [pbind slift sbind safe]. intros u _. split; [exact I|].
  cbn [pbind slift sbind safe]. intros [er|msg] Hm; rd; [err|].
  cbn [pbind slift sbind]. cbn [lok] in *. cbn [ev_of fst].
  apply safe_process_after; cbn [pr_id pr_counter pr_msg pr_reply got].
  - exists b0, fb. rewrite G. cbn [app]. rewrite Hm.
    rewrite (enc_dec cb 8) by exact Hcb. rewrite (enc_dec sz 8) by exact Hsz.
    split; [rewrite <- !app_assoc; reflexivity|]. split; [apply lenN16, Hid|]. split; [apply dec8, Hcb|].
    split; [apply N.ltb_ge, Hmax|]. split; [exact B|apply reply_bit].
  - exact Cl.
Qed.
Lemma safe_setup_handler C rc h b0 : got h = [b0] -> N.land (b2n b0) 15 = 2 -> clean h ->
  safe C (setup_handler C rc) h.
Proof.
  intros G B Cl. unfold setup_handler, parse_setup_req, pread, palloc.
  cbn [pbind slift sbind safe]. intros [er|id] Hid; rd; [err|].
  cbn [pbind slift sbind safe]. intros [er|sz] Hsz; rd; [err|].
  cbn [pbind slift sbind safe].
  destruct (max_key_size <? be_dec sz); [err|].
  cbn [pbind slift sbind safe]. intros u _. split; [exact I|].
  cbn [pbind slift sbind safe]. intros [er|raw] Hm; rd; [err|].
  cbn [pbind slift sbind]. unfold parse_ecdh.
  destruct (pkix_parse C raw) as [[k| | | | | | |]|] eqn:Ep; cbn [pbind slift sbind]; try err.
  apply safe_setup_after; cbn [sr_id sr_pub ev_of got]; [|exact Cl]. cbn [lok] in *.
  exists b0, raw. rewrite G, Hm. cbn [app]. rewrite (enc_dec sz 4) by exact Hsz.
  split; [rewrite <- !app_assoc; reflexivity|]. split; [apply lenN16, Hid|]. auto.
Qed.
Lemma safe_request C h : got h = [] -> clean h -> safe C (one_request C) h.
Proof.
  intros G Cl. unfold one_request, parse_req_common, pcopy1. cbn [pbind slift sbind safe].
  intros [f er] _. rd. destruct er as [er|]; [exact I|].
  destruct f as [|fb [|f2 fr]]; cbn [pbind slift sbind]; try exact I.
  cbn [rq_version rq_action]. destruct (_ =? version1); [|exact I]. unfold handle. cbn [rq_action].
  destruct (_ =? action_hello); [apply (safe_response _ RsHello); [reflexivity|exact I]|].
  destruct (_ =? action_setup) eqn:A2.
  { apply N.eqb_eq in A2. apply (safe_setup_handler _ _ _ fb); cbn; [rewrite G; reflexivity|exact A2|exact Cl]. }
  destruct (_ =? action_process) eqn:A3.
  { apply N.eqb_eq in A3. apply (safe_process_handler _ _ _ fb); cbn; [rewrite G; reflexivity|exact A3|exact Cl]. }
  destruct (_ =? action_fetch_key); [|exact I].
  unfold fetch_key_handler. cbn [sdo sbind safe]. intros [[alg pk]| |] _; (split; [exact I|]); [|err|exact I].
  destruct (pkix_marshal C pk) as [raw|] eqn:Em; [|err].
  apply (safe_response _ (RsFetchKey alg raw)); [reflexivity|]. exists pk. split; [inh|exact Em].
Qed.
Lemma safe_conn C : safe C (conn_body C) [].
Proof.
  unfold conn_body. cbn [sdo sbind safe]. intros q _. split; [exact I|].
  destruct q; [exact I|]. apply safe_request; reflexivity.
Qed.

(** ** Traces *)
Lemma loc_cons i j x tr : loc i ((j, x) :: tr) = if Nat.eqb j i then x :: loc i tr else loc i tr.
Proof. unfold loc; cbn. destruct (Nat.eqb j i); reflexivity. Qed.
Lemma in_loc i x tr : In x (loc i tr) <-> In (i, x) tr.
Proof.
  unfold loc. rewrite in_map_iff. split.
  - intros ([j y] & <- & H). apply filter_In in H as [H E]. cbn in E. apply Nat.eqb_eq in E. subst j. exact H.
  - intros H. exists (i, x). split; [reflexivity|]. apply filter_In. split; [exact H|]. apply Nat.eqb_refl.
Qed.

(** Counters accepted on session [p], newest first. *)
Fixpoint seen (p : nat) (tr : list (nat * ev)) : list N :=
  match tr with
  | [] => []
  | (_, EvCheck q c true) :: tr' => if Nat.eqb q p then c :: seen p tr' else seen p tr'
  | _ :: tr' => seen p tr'
  end.

Definition mentions (p : nat) (x : ev) : Prop :=
  match x with
  | EvNew q _ | EvStore _ q _ | EvLoad _ (Some q) | EvSecret q _ | EvCheck q _ _
  | EvHandler q _ _ _ _ | EvSeal q _ _ _ _ _ => q = p
  | _ => False
  end.

Record inv (C : Crypto) (g : gst) : Prop := {
  inv_safe : forall i v, g_inst g i = Some v -> safe C (i_prog v) (loc i (g_trace g));
  inv_noinst : forall i, g_inst g i = None -> loc i (g_trace g) = [];
  inv_tr : forall a i x b, g_trace g = a ++ (i, x) :: b -> evok C (loc i b) x;
  inv_host : forall i h, In (i, EvHost h) (g_trace g) -> exists v, g_inst g i = Some v /\ i_host v = h;
  inv_stored : forall k p, In (k, p) (g_stored g) ->
     (p < g_next g)%nat /\ exists i ok, In (i, EvStore k p ok) (g_trace g);
  inv_load : forall i k p, In (i, EvLoad k (Some p)) (g_trace g) -> In (k, p) (g_stored g);
  inv_new : forall i p sec, In (i, EvNew p sec) (g_trace g) -> (p < g_next g)%nat /\ ses_secret (g_heap g p) = sec;
  inv_secret : forall i p sec, In (i, EvSecret p sec) (g_trace g) -> ses_secret (g_heap g p) = sec;
  inv_win : forall p, represents (ses_win (g_heap g p)) (seen p (g_trace g));
  inv_fresh : forall p, (g_next g <= p)%nat -> seen p (g_trace g) = [];
  inv_nodup : forall p, NoDup (seen p (g_trace g)) }.

Lemma inv_init C : inv C g0.
Proof.
  constructor; cbn; try discriminate; try tauto; auto.
  - intros a i x b H. destruct a; discriminate H.
  - intros p. apply represents_init.
  - intros p. constructor.
Qed.

Lemma seen_other p i x tr : (forall q c, x <> EvCheck q c true) -> seen p ((i, x) :: tr) = seen p tr.
Proof. intros H. cbn. destruct x; try reflexivity. destruct fresh; [exfalso; eapply H; reflexivity|reflexivity]. Qed.

(** The general part of a step: instance [i] logs [x] and continues. *)
Lemma inv_step_gen C g i v x p' g' :
  inv C g -> g_inst g i = Some v ->
  evok C (loc i (g_trace g)) x -> safe C p' (x :: loc i (g_trace g)) ->
  (forall h, x = EvHost h -> i_host v = h) ->
  g_inst g' = g_inst g -> g_trace g' = g_trace g ->
  (forall k p, In (k, p) (g_stored g) -> In (k, p) (g_stored g')) ->
  (forall k p, In (k, p) (g_stored g') -> In (k, p) (g_stored g) \/
      ((p < g_next g')%nat /\ exists ok, x = EvStore k p ok)) ->
  (g_next g <= g_next g')%nat ->
  (forall k p, x = EvLoad k (Some p) -> In (k, p) (g_stored g)) ->
  (forall p sec, x = EvNew p sec -> (p < g_next g')%nat /\ ses_secret (g_heap g' p) = sec) ->
  (forall p sec, x = EvSecret p sec -> ses_secret (g_heap g' p) = sec) ->
  (forall p, (p < g_next g)%nat -> ses_secret (g_heap g' p) = ses_secret (g_heap g p)) ->
  (forall p, represents (ses_win (g_heap g' p)) (seen p ((i, x) :: g_trace g))) ->
  (forall p, NoDup (seen p ((i, x) :: g_trace g))) ->
  (forall p, (g_next g' <= p)%nat -> seen p ((i, x) :: g_trace g) = []) ->
  inv C (g_log (g_set_inst g' i {| i_host := i_host v; i_prog := p' |}) i x).
Proof.
  intros I Hi Hok Hs Hhost Ei Et St1 St2 Hn Hl Hnew Hsec Hkeep Hw Hnd Hf.
  constructor; cbn [g_log g_set_inst g_inst g_trace g_stored g_next g_heap]; rewrite ?Et, ?Ei.
  - intros j w. rewrite loc_cons. rewrite (Nat.eqb_sym i j). destruct (Nat.eqb_spec j i) as [->|N].
    + intros [= <-]. exact Hs.
    + apply (inv_safe C g I).
  - intros j. rewrite loc_cons. rewrite (Nat.eqb_sym i j). destruct (Nat.eqb_spec j i) as [->|N]; [discriminate|].
    apply (inv_noinst C g I).
  - intros [|y a] j z b H; cbn in H.
    + injection H as <- <- <-. exact Hok.
    + injection H as _ H. exact (inv_tr C g I _ _ _ _ H).
  - intros j h [H|H].
    + injection H as <- ->. rewrite Nat.eqb_refl. eexists. split; [reflexivity|]. cbn. auto.
    + destruct (inv_host C g I j h H) as (w & W1 & W2). destruct (Nat.eqb_spec j i) as [->|N]; [|eauto].
      rewrite Hi in W1. injection W1 as <-. eauto.
  - intros k p H. apply St2 in H as [H|[H [ok ->]]].
    + destruct (inv_stored C g I k p H) as (H1 & j & ok & H2). split; [lia|]. exists j, ok. right; exact H2.
    + split; [exact H|]. exists i, ok. left; reflexivity.
  - intros j k p [H|H].
    + injection H as <- ->. apply St1, Hl. reflexivity.
    + apply St1. exact (inv_load C g I j k p H).
  - intros j p sec [H|H].
    + injection H as <- ->. apply Hnew; reflexivity.
    + destruct (inv_new C g I j p sec H) as [H1 H2]. split; [lia|]. rewrite Hkeep by exact H1. exact H2.
  - intros j p sec [H|H].
    + injection H as <- ->. apply Hsec; reflexivity.
    + rewrite Hkeep; [exact (inv_secret C g I j p sec H)|].
      apply in_split in H as (a & b & H).
      pose proof (inv_tr C g I _ _ _ _ H) as (k & K). apply in_loc in K.
      assert (K' : In (j, EvLoad k (Some p)) (g_trace g)) by (rewrite H; apply in_or_app; right; right; exact K).
      apply (inv_load C g I) in K'. apply (inv_stored C g I) in K'. apply K'.
  - exact Hw.
  - exact Hf.
  - exact Hnd.
Qed.

(** A step that leaves the shared state alone. *)
Lemma inv_step_same C g i v x p' :
  inv C g -> g_inst g i = Some v ->
  evok C (loc i (g_trace g)) x -> safe C p' (x :: loc i (g_trace g)) ->
  (forall h, x = EvHost h -> i_host v = h) ->
  (forall k p, x = EvLoad k (Some p) -> In (k, p) (g_stored g)) ->
  (forall p sec, x <> EvNew p sec) -> (forall p c b, x <> EvCheck p c b) ->
  (forall p sec, x = EvSecret p sec -> ses_secret (g_heap g p) = sec) ->
  inv C (g_log (g_set_inst g i {| i_host := i_host v; i_prog := p' |}) i x).
Proof.
  intros I Hi Hok Hs Hhost Hl Hnew Hc Hsec.
  assert (Hseen : forall p, seen p ((i, x) :: g_trace g) = seen p (g_trace g))
    by (intros p; apply seen_other; intros q c; apply Hc).
  apply (inv_step_gen C g i v x p' g); auto.
  - intros p sec E. exfalso; exact (Hnew _ _ E).
  - intros p. rewrite Hseen. apply (inv_win C g I).
  - intros p. rewrite Hseen. apply (inv_nodup C g I).
  - intros p H. rewrite Hseen. apply (inv_fresh C g I), H.
Qed.

Lemma inv_step C g g' : inv C g -> cstep C g g' -> inv C g'.
Proof.
  intros I H. destruct H as [i host p Hi Hp|i v R e k r g' Hi Hp Ha].
  - destruct I as [I1 I2 I3 I4 I5 I6 I7 I8 I9 I10 I11].
    constructor; cbn [g_set_inst g_inst g_trace g_stored g_next g_heap]; auto.
    + intros j w. destruct (Nat.eqb_spec j i) as [->|N]; [|apply I1].
      intros [= <-]. cbn [i_prog]. rewrite (I2 i Hi). destruct Hp as [->| ->]; [apply safe_conn|].
      apply safe_request; reflexivity.
    + intros j. destruct (Nat.eqb_spec j i) as [->|N]; [discriminate|apply I2].
    + intros j h Hj. destruct (I4 j h Hj) as (w & W & W'). destruct (Nat.eqb_spec j i) as [->|N]; [congruence|eauto].
  - pose proof (inv_safe C g I i v Hi) as S. rewrite Hp in S. cbn [safe] in S.
    destruct (S r (ans_lok _ _ _ _ _ _ Ha)) as [Hok Hs]. clear S.
    destruct e; cbn [ans] in Ha; cbn [ev_of] in *.
    + destruct Ha as [-> _]. destruct r; apply inv_step_same; auto; discriminate.
    + destruct Ha as [-> _]. apply inv_step_same; auto; discriminate.
    + subst g'. apply inv_step_same; auto; discriminate.
    + subst g'. apply inv_step_same; auto; discriminate.
    + destruct Ha as [-> ->]. apply inv_step_same; auto; try discriminate. congruence.
    + subst g'. apply inv_step_same; auto; discriminate.
    + (* SNewSession *)
      destruct Ha as [-> ->].
      assert (Hseen : forall p, seen p ((i, EvNew (g_next g) secret) :: g_trace g) = seen p (g_trace g)) by reflexivity.
      eapply inv_step_gen; eauto; cbn [g_set_next g_set_session g_next g_stored g_heap]; try discriminate; auto.
      * intros p sec [= <- <-]. rewrite Nat.eqb_refl. split; [lia|reflexivity].
      * intros p Hlt. destruct (Nat.eqb_spec p (g_next g)); [lia|reflexivity].
      * intros p. rewrite Hseen. destruct (Nat.eqb_spec p (g_next g)) as [->|_]; [|apply (inv_win C g I)].
        rewrite (inv_fresh C g I) by lia. apply represents_init.
      * intros p. rewrite Hseen. apply (inv_nodup C g I).
      * intros p Hlt. rewrite Hseen. apply (inv_fresh C g I). lia.
    + (* SStore *)
      assert (Hseen : forall q, seen q ((i, EvStore key p r) :: g_trace g) = seen q (g_trace g)) by reflexivity.
      destruct Ha as [->|[-> ->]]; [|apply inv_step_same; auto; discriminate].
      eapply inv_step_gen; eauto; cbn [g_add_stored g_next g_stored g_heap]; try discriminate; auto.
      * intros k0 q Hin; right; exact Hin.
      * intros k0 q [[= <- <-]|Hin]; [|auto]. right. split; [|eauto].
        destruct Hok as (host & id & sec & pub & sk & _ & _ & _ & _ & Hnew & _).
        apply in_loc in Hnew. apply (inv_new C g I) in Hnew. apply Hnew.
      * intros q. rewrite Hseen. apply (inv_win C g I).
      * intros q. rewrite Hseen. apply (inv_nodup C g I).
      * intros q Hlt. rewrite Hseen. apply (inv_fresh C g I). exact Hlt.
    + destruct Ha as [-> Ha]. apply inv_step_same; auto; try discriminate.
      intros k0 q [= <- ->]. exact Ha.
    + destruct Ha as [-> ->]. apply inv_step_same; auto; try discriminate. congruence.
    + (* SCheck *)
      destruct Ha as [-> ->].
      pose proof Hok as (_ & hh & idd & rr & ctt & Hpo & _ & Hk).
      assert (Hc : c < two64) by (destruct Hpo as (? & ? & _ & _ & Hc & _); exact Hc).
      apply in_loc in Hk. apply (inv_load C g I) in Hk. apply (inv_stored C g I) in Hk as [Hlt _].
      destruct (check_spec _ _ c (inv_win C g I p) Hc) as [(Hacc & w' & Ew & Rw)|(Hacc & Ew)]; rewrite Ew in *; cbn [fst snd] in *.
      * eapply inv_step_gen; eauto; cbn [g_set_session g_next g_stored g_heap]; try discriminate; auto.
        -- intros q Hq. destruct (Nat.eqb_spec q p) as [->|_]; reflexivity.
        -- intros q. cbn [seen]. rewrite (Nat.eqb_sym q p). destruct (Nat.eqb_spec p q) as [->|_]; [exact Rw|].
           apply (inv_win C g I).
        -- intros q. cbn [seen]. destruct (Nat.eqb_spec p q) as [->|_]; [|apply (inv_nodup C g I)].
           constructor; [|apply (inv_nodup C g I)]. apply Hacc.
        -- intros q Hq. cbn [seen]. destruct (Nat.eqb_spec p q) as [->|_]; [lia|apply (inv_fresh C g I), Hq].
      * eapply inv_step_gen; eauto; cbn [g_set_session g_next g_stored g_heap]; try discriminate; auto.
        -- intros q Hq. destruct (Nat.eqb_spec q p) as [->|_]; reflexivity.
        -- intros q. cbn [seen]. destruct (Nat.eqb_spec q p) as [->|_]; apply (inv_win C g I).
        -- intros q. cbn [seen]. apply (inv_nodup C g I).
        -- intros q Hq. cbn [seen]. apply (inv_fresh C g I), Hq.
    + subst g'. apply inv_step_same; auto; discriminate.
    + destruct Ha as [-> _]. apply inv_step_same; auto; discriminate.
    + subst g'. apply inv_step_same; auto; discriminate.
    + subst g'. apply inv_step_same; auto; discriminate.
    + subst g'. apply inv_step_same; auto; discriminate.
Qed.
Lemma inv_reach C g : reachable C g -> inv C g.
Proof. induction 1; [apply inv_init|eapply inv_step; eauto]. Qed.
