From Verif Require Import Bytes BytesProofs Parser ParserProofs Crypto Kdf Wire WireProofs WireSeq WireExtra Server ServerProps Keys Client ClientSeq SpecClient
  ConcProofs ClientConc SpecClientConc.

Definition is_add (x : kev) : bool := match x with KAdd _ _ => true | _ => false end.
Definition is_kseal (x : kev) : bool := match x with KSeal _ _ _ _ _ _ => true | _ => false end.
Definition is_kwrite (x : kev) : bool := match x with KWrite _ _ => true | _ => false end.
Definition is_getlast (x : kev) : bool := match x with KGetLast _ _ => true | _ => false end.

Section Contract.
Variables (C : Crypto) (W : world) (cl : nat) (o : op).
Let ses : csession := w_secret W (w_session W cl).

Definition acc (h : list kev) (m : bytes) : Prop :=
  exists c ct key, process_response_octets (kgot h) c ct /\ In (KGetLast cl c) h /\
    client_gcm C (cs_secret ses) = Some key /\ gcm_open C key (gcm_nonce dir_s2c c) ct = Some m.

Definition kevok (h : list kev) (x : kev) : Prop :=
  match x with
  | KRead _ => existsb is_getlast h = false
  | KAdd s c => s = w_session W cl /\ c < two64 /\ existsb is_add h = false /\ exists p, o = OpWrite p
  | KSetLast cl' c => cl' = cl /\ In (KAdd (w_session W cl) c) h /\ c <> 0 /\ exists p, o = OpWrite p
  | KGetLast cl' c => cl' = cl /\ existsb is_getlast h = false /\ exists n, o = OpRead n
  | KGetBuf cl' _ => cl' = cl /\ exists n, o = OpRead n
  | KSetBuf cl' b' => cl' = cl /\ exists n b, o = OpRead n /\ In (KGetBuf cl b) h /\
      (b' = dropN n b \/ exists m, b' = b ++ m /\ acc h m)
  | KSeal s c key nonce pt ct => s = w_session W cl /\ o = OpWrite pt /\ existsb is_kseal h = false /\
      In (KSetLast cl c) h /\ In (KAdd s c) h /\ c <> 0 /\ c < two64 /\
      client_gcm C (cs_secret ses) = Some key /\ nonce = gcm_nonce dir_c2s c /\ ct = gcm_seal C key nonce pt
  | KWrite b _ => exists c key pt ct, o = OpWrite pt /\ In (KSeal (w_session W cl) c key (gcm_nonce dir_c2s c) pt ct) h /\
      b = enc_request (RqProcess (cs_id ses) c ct (co_reply (w_opts W cl))) /\ existsb is_kwrite h = false
  | KOther => True
  end.

Definition klok {R} (e : ceff R) : R -> Prop :=
  match e in ceff R return R -> Prop with
  | CRead n => fun r => match r with inl _ => True | inr b => lenN b = n end
  | CCopy n => fun r => lenN (fst r) <= n
  | CSeal _ key nonce pt => fun r => r = gcm_seal C key nonce pt
  | CAdd => fun r => r < two64
  | _ => fun _ => True
  end.

Definition kpost (h : list kev) (r : rd_result + wr_result) : Prop :=
  match r with
  | inl (RdOk data eof) => exists n b, o = OpRead n /\ In (KGetBuf cl b) h /\ data = takeN n b /\ eof = (lenN b <=? n)
  | inl (RdErr _) => exists n, o = OpRead n
  | inr (WrConn n _) => exists b, In (KWrite b n) h
  | inr _ => exists p, o = OpWrite p
  end.

Fixpoint ksafe (p : cprog (rd_result + wr_result)) (h : list kev) : Prop :=
  match p with
  | CRet a => kpost h a
  | CPanic => False
  | CDo e k => forall r, klok e r -> kevok h (kev_of W cl e r) /\ ksafe (k r) (kev_of W cl e r :: h)
  end.
End Contract.

Lemma kans_lok C W cl k {R} (e : ceff R) r k' : kans C W cl k e r k' -> klok C e r.
Proof.
  destruct e; cbn; try tauto. intros [-> _]. apply N.mod_lt. discriminate.
Qed.

(** Nothing but reading so far. *)
Definition kplain (x : kev) : bool := match x with KRead _ | KGetBuf _ _ | KOther => true | _ => false end.
Definition kclean (h : list kev) : Prop := forallb kplain h = true.
Lemma kclean_none f h : kclean h -> (forall x, kplain x = true -> f x = false) -> existsb f h = false.
Proof.
  unfold kclean. intros H F. induction h as [|x h IH]; [reflexivity|]. cbn in *.
  apply andb_prop in H as [H1 H2]. rewrite (F x H1), IH by exact H2. reflexivity.
Qed.
Ltac knone := cbn; (eapply kclean_none; [eassumption|]; intros [] H; try discriminate H; reflexivity).
Ltac krd := split; [first [exact I | knone]|].

Lemma ksafe_write C W cl p : ksafe C W cl (OpWrite p) (op_prog C W cl (OpWrite p)) [].
Proof.
  unfold op_prog, client_write. set (ses := w_secret W (w_session W cl)).
  assert (T : forall h, kclean h -> ksafe C W cl (OpWrite p)
    (doc r <- match client_gcm C (cs_secret ses) with
    | None => CRet WrKey
    | Some key =>
        doc c <- cdo CAdd;
        if c =? 0 then CRet WrExhausted
        else
          doc _ <- cdo (CSetLast c);
          doc ct <- cdo (CSeal c key (gcm_nonce dir_c2s c) p);
          doc w <- cdo (CWrite (enc_process_req (new_process_request (cs_id ses) c ct (co_reply (w_opts W cl)))));
          CRet (WrConn (fst w) (snd w))
    end; CRet (inr r)) h).
  { intros h Cl. destruct (client_gcm C (cs_secret ses)) as [key|] eqn:Ek; [|cbn; eauto].
    cbn [cdo cbind ksafe]. intros c Hc. cbn [klok] in Hc.
    split; [cbn [kev_of kevok]; split; [reflexivity|]; split; [exact Hc|]; split; [knone|eauto]|].
    destruct (N.eqb_spec c 0) as [->|Nz]; [cbn; eauto|].
    cbn [cdo cbind ksafe]. intros u _. split.
    { cbn [kev_of kevok]. split; [reflexivity|]. split; [inh|]. split; [exact Nz|eauto]. }
    cbn [cdo cbind ksafe]. intros ct Hct. cbn [klok] in Hct. split.
    { cbn [kev_of kevok]. split; [reflexivity|]. split; [reflexivity|]. split; [knone|]. split; [inh|]. split; [inh|].
      split; [exact Nz|]. split; [exact Hc|]. split; [exact Ek|]. auto. }
    cbn [cdo cbind ksafe]. intros [n er] _. cbn [kev_of fst snd]. split.
    { cbn [kevok]. exists c, key, p, ct. split; [reflexivity|]. split; [inh|]. split; [reflexivity|knone]. }
    cbn. eexists. left; reflexivity. }
  destruct (co_wto (w_opts W cl)); cbn [cdo cbind].
  - cbn [ksafe]. intros ok _. split; [exact I|]. destruct ok; cbn [negb]; [|cbn; eauto].
    apply T. reflexivity.
  - cbn [negb]. apply T. reflexivity.
Qed.

Lemma ksafe_buffered C W cl n buf h : In (KGetBuf cl buf) h ->
  ksafe C W cl (OpRead n) (doc r <- read_buffered buf n; CRet (inl r)) h.
Proof.
  intros H. unfold read_buffered, buffer_read.
  assert (G : ksafe C W cl (OpRead n) (doc r <- (doc _ <- cdo (CSetBuf (dropN n buf));
     CRet (RdOk (takeN n buf) (lenN (dropN n buf) =? 0))); CRet (inl r)) h).
  { cbn [cdo cbind ksafe]. intros u _. split.
    - cbn [kev_of kevok]. split; [reflexivity|]. exists n, buf. auto.
    - cbn [kpost]. exists n, buf. split; [reflexivity|]. split; [right; exact H|]. split; [reflexivity|].
      rewrite dropN_len. apply Bool.eq_true_iff_eq. rewrite N.eqb_eq, N.leb_le. lia. }
  destruct buf as [|x buf]; [|exact G].
  destruct (N.eqb_spec n 0) as [->|]; [exact G|]. cbn. eauto.
Qed.

Lemma hi_bit (b : byte) : (N.shiftr (b2n b) 7 =? 1) = (128 <=? b2n b).
Proof. destruct b; reflexivity. Qed.

Lemma ksafe_read C W cl n : ksafe C W cl (OpRead n) (op_prog C W cl (OpRead n)) [].
Proof.
  unfold op_prog, client_read. set (ses := w_secret W (w_session W cl)).
  assert (T : forall h, kclean h -> kgot h = [] -> ksafe C W cl (OpRead n)
   (doc r <- (doc buf <- cdo CGetBuf;
    if 0 <? lenN buf then read_buffered buf n
    else
      doc rc <- clift parse_resp_common;
      match rc with
      | inl e => CRet (RdErr (RdParse e))
      | inr rc =>
          if negb (rs_success rc) then
            doc er <- clift (parse_error_resp rc);
            match er with
            | inl e => CRet (RdErr (RdParse e))
            | inr er => CRet (RdErr (RdRemote (er_code er) (er_msg er)))
            end
          else
            doc r <- clift (parse_process_resp rc);
            match r with
            | inl e => CRet (RdErr (RdParse e))
            | inr r =>
                doc last <- cdo CGetLast;
                if negb (ps_counter r =? last) then CRet (RdErr RdCounter)
                else
                  match client_gcm C (cs_secret ses) with
                  | None => CRet (RdErr RdKey)
                  | Some key =>
                      match gcm_open C key (gcm_nonce dir_s2c (ps_counter r)) (ps_msg r) with
                      | None => CRet (RdErr RdDecrypt)
                      | Some message =>
                          doc buf <- cdo CGetBuf;
                          doc _ <- cdo (CSetBuf (buf ++ message));
                          doc buf <- cdo CGetBuf;
                          read_buffered buf n
                      end
                  end
            end
      end); CRet (inl r)) h).
  { intros h Cl G. cbn [cdo cbind ksafe]. intros buf _. cbn [kev_of]. split; [split; [reflexivity|eauto]|].
    destruct (0 <? lenN buf); [apply ksafe_buffered; left; reflexivity|].
    unfold parse_resp_common, pcopy1. cbn [pbind clift cbind ksafe].
    intros [f er] _. krd. destruct er as [er|]; [cbn; eauto|].
    destruct f as [|b0 [|f2 fr]]; cbn [pbind clift cbind]; [cbn; eauto| |cbn; eauto].
    cbn [rs_success]. rewrite hi_bit. destruct (128 <=? b2n b0) eqn:Hb; cbn [negb].
    2:{ unfold parse_error_resp, pread. cbn [pbind clift cbind ksafe]. intros [er|code] _; krd; [cbn; eauto|].
        cbn [pbind clift cbind ksafe]. intros [er|sz] _; krd; [cbn; eauto|]. cbn [pbind clift cbind].
        destruct (0 <? be_dec sz); [|cbn; eauto]. cbn [clift cbind ksafe]. intros [m er] _. krd.
        destruct er as [er|]; [cbn; eauto|]. destruct (_ && _); cbn; eauto. }
    unfold parse_process_resp, pread, palloc.
    cbn [pbind clift cbind ksafe]. intros [er|cb] Hcb; krd; [cbn; eauto|].
    cbn [pbind clift cbind ksafe]. intros [er|sz] Hsz; krd; [cbn; eauto|].
    cbn [pbind clift cbind].
    destruct (max_message_size <? be_dec sz) eqn:Hmax; [cbn; eauto|].
    cbn [pbind clift cbind ksafe]. intros u _. split; [exact I|].
    cbn [pbind clift cbind ksafe]. intros [er|msg] Hm; krd; [cbn; eauto|].
    cbn [pbind clift cbind]. cbn [klok] in *. cbn [kev_of fst ps_counter ps_msg].
    cbn [cdo cbind ksafe]. intros last _. split.
    { cbn [kev_of kevok]. split; [reflexivity|]. split; [knone|eauto]. }
    cbn [kev_of]. destruct (N.eqb_spec (be_dec cb) last) as [Ec|_]; cbn [negb]; [|cbn; eauto].
    destruct (client_gcm C (cs_secret ses)) as [key|] eqn:Ek; [|cbn; eauto].
    destruct (gcm_open C key _ msg) as [m|] eqn:Eo; [|cbn; eauto].
    cbn [cdo cbind ksafe]. intros buf2 _. split; [cbn; eauto|]. cbn [kev_of].
    cbn [cdo cbind ksafe]. intros u2 _. split.
    { cbn [kev_of kevok]. split; [reflexivity|]. exists n, buf2. split; [reflexivity|]. split; [inh|]. right.
      exists m. split; [reflexivity|]. exists last, msg, key. split; [|split; [inh|]].
      - cbn [kgot]. rewrite G. cbn [app]. exists b0. rewrite Hm. rewrite <- Ec, (enc_dec cb 8), (enc_dec sz 8) by assumption.
        split; [rewrite <- !app_assoc; reflexivity|]. split; [apply N.leb_le, Hb|].
        split; [exact (be_dec_lt_len cb 8 Hcb)|apply N.ltb_ge, Hmax].
      - split; [exact Ek|]. rewrite <- Ec. exact Eo. }
    cbn [cdo cbind ksafe]. intros buf3 _. split; [cbn; eauto|].
    apply ksafe_buffered. left; reflexivity. }
  destruct (co_rto (w_opts W cl)); cbn [cdo cbind].
  - cbn [ksafe]. intros ok _. split; [exact I|]. destruct ok; cbn [negb]; [|cbn; eauto].
    apply T; reflexivity.
  - cbn [negb]. apply T; reflexivity.
Qed.

(** ** Traces *)
Lemma kloc_cons i j x tr : kloc i ((j, x) :: tr) = if Nat.eqb j i then x :: kloc i tr else kloc i tr.
Proof. unfold kloc; cbn. destruct (Nat.eqb j i); reflexivity. Qed.
Lemma in_kloc i x tr : In x (kloc i tr) <-> In (i, x) tr.
Proof.
  unfold kloc. rewrite in_map_iff. split.
  - intros ([j y] & <- & H). apply filter_In in H as [H E]. cbn in E. apply Nat.eqb_eq in E. subst j. exact H.
  - intros H. exists (i, x). split; [reflexivity|]. apply filter_In. split; [exact H|]. apply Nat.eqb_refl.
Qed.

(** What an event says about the events of all instances before it. *)
Definition gok (b : list (nat * kev)) (x : kev) : Prop :=
  match x with
  | KGetLast cl c => c = last_set cl b
  | KAdd s c => c = (adds s b + 1) mod two64
  | _ => True
  end.

(** Octets that come, in order, from the end of accepted replies. *)
Definition from_replies (C : Crypto) (W : world) (tr : list (nat * kev)) (cl : nat) (b : bytes) : Prop :=
  exists pre ms, concat ms = pre ++ b /\
    Forall (fun m => exists i a b' r, tr = a ++ (i, KSetBuf cl b') :: r /\ acc C W cl (kloc i r) m) ms.

Record kinv (C : Crypto) (W : world) (k : kst) : Prop := {
  kinv_safe : forall i v, k_inst k i = Some v -> ksafe C W (o_client v) (o_op v) (o_prog v) (kloc i (k_trace k));
  kinv_noinst : forall i, k_inst k i = None -> kloc i (k_trace k) = [];
  kinv_tr : forall a i x b, k_trace k = a ++ (i, x) :: b -> exists v, k_inst k i = Some v /\
     kevok C W (o_client v) (o_op v) (kloc i b) x /\ gok b x;
  kinv_last : forall cl, k_last k cl = last_set cl (k_trace k);
  kinv_ctr : forall s, k_ctr k s = adds s (k_trace k) mod two64;
  kinv_buf : forall cl, from_replies C W (k_trace k) cl (k_buf k cl);
  kinv_getbuf : forall i cl b, In (i, KGetBuf cl b) (k_trace k) -> from_replies C W (k_trace k) cl b }.

Lemma kinv_init C W : kinv C W k0.
Proof.
  constructor; cbn; try discriminate; try tauto; auto.
  - intros a i x b H. destruct a; discriminate H.
  - intros cl. exists [], []. split; [reflexivity|constructor].
Qed.

Lemma from_cons C W x tr cl b : from_replies C W tr cl b -> from_replies C W (x :: tr) cl b.
Proof.
  intros (pre & ms & E & F). exists pre, ms. split; [exact E|].
  eapply Forall_impl; [|exact F]. intros m (i & a & b' & r & -> & A). exists i, (x :: a), b', r. auto.
Qed.
Lemma from_drop C W tr cl b n : from_replies C W tr cl b -> from_replies C W tr cl (dropN n b).
Proof.
  intros (pre & ms & E & F). exists (pre ++ takeN n b), ms. split; [|exact F].
  rewrite E, <- app_assoc, takeN_dropN. reflexivity.
Qed.

Lemma kinv_step_gen C W k i v x p' k' :
  kinv C W k -> k_inst k i = Some v ->
  kevok C W (o_client v) (o_op v) (kloc i (k_trace k)) x ->
  ksafe C W (o_client v) (o_op v) p' (x :: kloc i (k_trace k)) ->
  gok (k_trace k) x ->
  k_inst k' = k_inst k -> k_trace k' = k_trace k ->
  (forall cl, k_last k' cl = last_set cl ((i, x) :: k_trace k)) ->
  (forall s, k_ctr k' s = adds s ((i, x) :: k_trace k) mod two64) ->
  (forall cl, from_replies C W ((i, x) :: k_trace k) cl (k_buf k' cl)) ->
  (forall cl b, x = KGetBuf cl b -> b = k_buf k cl) ->
  kinv C W (k_log (k_set_inst k' i {| o_client := o_client v; o_op := o_op v; o_prog := p' |}) i x).
Proof.
  intros I Hi Hok Hs Hg Ei Et Hl Hc Hb Hgb.
  constructor; cbn [k_log k_set_inst k_inst k_trace k_last k_ctr k_buf]; rewrite ?Et, ?Ei; unfold upd.
  - intros j w. rewrite kloc_cons, (Nat.eqb_sym i j). destruct (Nat.eqb_spec j i) as [->|N].
    + intros [= <-]. exact Hs.
    + apply (kinv_safe C W k I).
  - intros j. rewrite kloc_cons, (Nat.eqb_sym i j). destruct (Nat.eqb_spec j i) as [->|N]; [discriminate|].
    apply (kinv_noinst C W k I).
  - intros [|y a] j z b H; cbn in H.
    + injection H as <- <- <-. rewrite Nat.eqb_refl. eexists. split; [reflexivity|]. auto.
    + injection H as _ H. destruct (kinv_tr C W k I _ _ _ _ H) as (w & E1 & E2).
      destruct (Nat.eqb_spec j i) as [->|N]; [|eauto].
      rewrite Hi in E1. injection E1 as <-. eexists. split; [reflexivity|]. exact E2.
  - exact Hl.
  - exact Hc.
  - exact Hb.
  - intros j cl b [H|H].
    + injection H as <- ->. rewrite (Hgb cl b eq_refl). apply from_cons, (kinv_buf C W k I).
    + apply from_cons. exact (kinv_getbuf C W k I j cl b H).
Qed.

Lemma kinv_step_same C W k i v x p' :
  kinv C W k -> k_inst k i = Some v ->
  kevok C W (o_client v) (o_op v) (kloc i (k_trace k)) x ->
  ksafe C W (o_client v) (o_op v) p' (x :: kloc i (k_trace k)) ->
  gok (k_trace k) x ->
  (forall cl b, x = KGetBuf cl b -> b = k_buf k cl) ->
  match x with KAdd _ _ | KSetLast _ _ | KSetBuf _ _ => False | _ => True end ->
  kinv C W (k_log (k_set_inst k i {| o_client := o_client v; o_op := o_op v; o_prog := p' |}) i x).
Proof.
  intros I Hi Hok Hs Hg Hgb Hx. eapply kinv_step_gen; eauto.
  - intros cl. rewrite (kinv_last C W k I). destruct x; try contradiction; reflexivity.
  - intros s. rewrite (kinv_ctr C W k I). destruct x; try contradiction; reflexivity.
  - intros cl. apply from_cons, (kinv_buf C W k I).
Qed.

Lemma kinv_step C W k k' : kinv C W k -> kstep C W k k' -> kinv C W k'.
Proof.
  intros I H. destruct H as [i cl o Hi|i v R e f r k' Hi Hp Ha].
  - destruct I as [I1 I2 I3 I4 I5 I6 I7].
    constructor; cbn [k_set_inst k_inst k_trace k_last k_ctr k_buf]; unfold upd; auto.
    + intros j w. destruct (Nat.eqb_spec j i) as [->|N]; [|apply I1].
      intros [= <-]. cbn [o_client o_op o_prog]. rewrite (I2 i Hi). destruct o; [apply ksafe_read|apply ksafe_write].
    + intros j. destruct (Nat.eqb_spec j i) as [->|N]; [discriminate|apply I2].
    + intros a j x b E. destruct (I3 a j x b E) as (w & W1 & W2).
      destruct (Nat.eqb_spec j i) as [->|N]; [congruence|eauto].
  - pose proof (kinv_safe C W k I i v Hi) as S. rewrite Hp in S. cbn [ksafe] in S.
    destruct (S r (kans_lok _ _ _ _ _ _ _ Ha)) as [Hok Hs]. clear S.
    destruct e; cbn [kans] in Ha; cbn [kev_of] in *.
    + destruct Ha as [-> _]. destruct r; apply kinv_step_same; auto; try exact Logic.I; discriminate.
    + destruct Ha as [-> _]. apply kinv_step_same; auto; try exact Logic.I; discriminate.
    + subst k'. apply kinv_step_same; auto; try exact Logic.I; discriminate.
    + subst k'. apply kinv_step_same; auto; try exact Logic.I; discriminate.
    + subst k'. apply kinv_step_same; auto; try exact Logic.I; discriminate.
    + subst k'. apply kinv_step_same; auto; try exact Logic.I; discriminate.
    + subst k'. apply kinv_step_same; auto; try exact Logic.I; discriminate.
    + subst k'. apply kinv_step_same; auto; try exact Logic.I; discriminate.
    + (* CAdd *)
      destruct Ha as [Hr ->]. set (s := w_session W (o_client v)) in *.
      assert (Hr' : r = (adds s (k_trace k) + 1) mod two64).
      { rewrite Hr, (kinv_ctr C W k I). rewrite N.add_mod_idemp_l by discriminate. reflexivity. }
      eapply kinv_step_gen; eauto; try discriminate; cbn [k_set_ctr k_last k_ctr k_buf].
      * intros cl. apply (kinv_last C W k I).
      * intros s'. unfold upd. cbn [adds]. rewrite (Nat.eqb_sym s s'). destruct (Nat.eqb_spec s' s) as [->|N].
        -- rewrite Hr'. f_equal. lia.
        -- apply (kinv_ctr C W k I).
      * intros cl. apply from_cons, (kinv_buf C W k I).
    + (* CSetLast *)
      subst k'. eapply kinv_step_gen; eauto; try discriminate; try exact Logic.I; cbn [k_set_last k_last k_ctr k_buf].
      * intros cl. unfold upd. cbn [last_set]. rewrite (Nat.eqb_sym cl). destruct (Nat.eqb_spec (o_client v) cl) as [E|N];
          [reflexivity|apply (kinv_last C W k I)].
      * intros s. apply (kinv_ctr C W k I).
      * intros cl. apply from_cons, (kinv_buf C W k I).
    + destruct Ha as [-> ->]. apply kinv_step_same; auto; try exact Logic.I; try discriminate.
      apply (kinv_last C W k I).
    + destruct Ha as [-> ->]. apply kinv_step_same; auto; try exact Logic.I. intros cl b [= <- <-]. reflexivity.
    + (* CSetBuf *)
      subst k'. eapply kinv_step_gen; eauto; try discriminate; try exact Logic.I; cbn [k_set_buf k_last k_ctr k_buf].
      * intros cl. apply (kinv_last C W k I).
      * intros s. apply (kinv_ctr C W k I).
      * intros cl. unfold upd. destruct (Nat.eqb_spec cl (o_client v)) as [->|N];
          [|apply from_cons, (kinv_buf C W k I)].
        destruct Hok as (_ & n & b0 & _ & Hin & Hb). apply in_kloc in Hin. apply (kinv_getbuf C W k I) in Hin.
        destruct Hb as [->|(m & -> & A)]; [apply from_drop, from_cons, Hin|].
        apply (from_cons C W (i, KSetBuf (o_client v) (b0 ++ m))) in Hin as (pre & ms & E & F).
        exists pre, (ms ++ [m]). split.
        -- rewrite concat_app, E. cbn. rewrite app_nil_r, app_assoc. reflexivity.
        -- apply Forall_app. split; [exact F|]. constructor; [|constructor].
           exists i, [], (b0 ++ m), (k_trace k). auto.
    + destruct Ha as [-> _]. apply kinv_step_same; auto; try exact Logic.I; discriminate.
Qed.
Lemma kinv_reach C W k : kreachable C W k -> kinv C W k.
Proof. induction 1; [apply kinv_init|eapply kinv_step; eauto]. Qed.
