(** What remains true of expectations that fail in general. *)
From Verif Require Import Bytes BytesProofs Parser ParserProofs Crypto Kdf Wire WireProofs WireSeq WireExtra Keys
  Replay SpecReplay ReplayProofs Server ServerSeq SpecServer ServerProofs ServerProps ServerProps2 ServerProps3
  Client ClientSeq SpecClient ClientProofs ClientProps SpecE2E E2EProofs Timed UsageProofs TimedClient.

(** ** C16 *)
Lemma exhausted_write C E o ses p s : c_ctr s + 1 = 2 ^ 64 ->
  let '(r, s') := crun C E (client_write C o ses p) s in
  (r = Some WrExhausted \/ r = Some WrDeadline \/ r = Some WrKey) /\
  c_sent s' = c_sent s /\ c_seals s' = c_seals s /\ c_last s' = c_last s.
Proof.
  intros H. unfold client_write.
  assert (X : exists ok s1, c_ctr s1 = c_ctr s /\ c_sent s1 = c_sent s /\ c_seals s1 = c_seals s /\ c_last s1 = c_last s /\
    forall f : bool -> cprog wr_result,
    crun C E (cbind (if co_wto o then cdo CDeadline else CRet true) f) s = crun C E (f ok) s1).
  { destruct (co_wto o); [exists (ce_deadline E (c_step s)), (c_tick s)|exists true, s]; repeat split. }
  destruct X as (ok & s1 & Hc & Hs & He & Hl & X). rewrite X. destruct ok; cbn [negb]; [|cbn [crun]; auto].
  destruct (client_gcm C (cs_secret ses)) as [key|]; [|cbn [crun]; auto].
  rewrite crun_do. cbn [cexec]. cbv zeta. cbn [fst snd]. rewrite Hc, H. change ((2 ^ 64) mod two64) with 0.
  cbn [N.eqb crun c_set_ctr c_sent c_seals c_last]. auto.
Qed.

(** ** C47 *)
Lemma empty_reply_consumed C (L : CryptoLaws C) E o ses n s oc rest key :
  c_works E -> c_buf s = [] -> c_in s = oc ++ rest -> client_gcm C (cs_secret ses) = Some key ->
  process_response_octets oc (c_last s) (gcm_seal C key (gcm_nonce dir_s2c (c_last s)) []) ->
  exists r s', crun C E (client_read C o ses n) s = (Some r, s') /\ c_in s' = rest /\ c_buf s' = [] /\
    (c_sent s' = c_sent s /\ c_ctr s' = c_ctr s /\ c_last s' = c_last s /\ c_seals s' = c_seals s) /\
    forall data eof, r = RdOk data eof -> data = [] /\ eof = true.
Proof.
  intros W Hb Hin K Ho.
  destruct (read_fresh_run C E o ses n s oc rest _ _ key W Hb Hin Ho K) as (r & s1 & R & I & S & B).
  rewrite N.eqb_refl, (gcm_open_seal _ L) in B. destruct B as [-> Hbuf].
  exists (if n =? 0 then RdOk [] true else RdErr RdBuffer), s1. repeat split; try assumption; try apply S.
  - destruct (n =? 0); [|discriminate H]. injection H as <- <-. reflexivity.
  - destruct (n =? 0); [|discriminate H]. injection H as <- <-. reflexivity.
Qed.

(** ** What a Read returns was on the wire *)
Lemma buffered_inv C E b n s data eof s' : crun C E (read_buffered b n) s = (Some (RdOk data eof), s') ->
  (b = [] /\ n = 0 /\ data = [] /\ eof = true /\ s' = c_set_buf s []) \/
  (b <> [] /\ data = takeN n b /\ eof = (lenN b <=? n) /\ s' = c_set_buf s (dropN n b)).
Proof.
  destruct b as [|x b].
  - unfold read_buffered, buffer_read. destruct (N.eqb_spec n 0) as [->|]; [|cbn; discriminate].
    rewrite crun_do. cbn [cexec fst snd crun]. intros H. injection H as <- <- <-. left. auto.
  - rewrite read_buffered_run by discriminate. intros H. injection H as <- <- <-. right. repeat split. discriminate.
Qed.

Lemma read_rest_inv C E ses n ok s : c_buf s = [] -> forall r s', crun C E (read_rest C ses n ok) s = (Some r, s') ->
  (forall data eof, r = RdOk data eof ->
   exists oc ct key m, process_response_octets oc (c_last s) ct /\ c_in s = oc ++ c_in s' /\ client_gcm C (cs_secret ses) = Some key /\
     gcm_open C key (gcm_nonce dir_s2c (c_last s)) ct = Some m /\ data = takeN n m /\ eof = (lenN m <=? n) /\ c_buf s' = dropN n m) /\
  (forall code msg, r = RdErr (RdRemote code msg) ->
   exists b0, b2n b0 < 128 /\ code < 2 ^ 32 /\ lenN msg < 2 ^ 63 /\
     c_in s = b0 :: be_enc 4 code ++ be_enc 8 (lenN msg) ++ msg ++ c_in s').
Proof.
  intros Hb r s'. unfold read_rest. destruct ok; cbn [negb].
  2:{ cbn [crun]. intros H. injection H as <- <-. split; discriminate. }
  rewrite crun_do. cbn [cexec fst snd]. rewrite Hb. change (0 <? lenN []) with false. cbv iota.
  rewrite crun_bind, crun_lift. destruct (run parse_resp_common (c_in s) (ce_end E)) as [[e|rc] i1] eqn:R1.
  { cbn [fst snd crun]. intros H. injection H as <- <-. split; discriminate. }
  cbn [fst snd]. apply inv_resp_common in R1 as (b0 & Hi & Hsu). rewrite Hsu. destruct (N.leb_spec 128 (b2n b0)) as [Hb0|Hb0]; cbn [negb].
  - rewrite crun_bind, crun_lift. cbn [c_set_in c_in].
    destruct (run (parse_process_resp rc) i1 (ce_end E)) as [[e|m] i2] eqn:R2.
    { cbn [fst snd crun]. intros H. injection H as <- <-. split; discriminate. }
    apply inv_process_resp in R2 as (Hi2 & Hc & Hm). cbn [fst snd]. rewrite crun_do. cbn [cexec fst snd c_set_in c_last].
    destruct (N.eqb_spec (ps_counter m) (c_last s)) as [El|El]; cbn [negb].
    2:{ cbn [crun]. intros H. injection H as <- <-. split; discriminate. }
    destruct (client_gcm C (cs_secret ses)) as [key|] eqn:K.
    2:{ cbn [crun]. intros H. injection H as <- <-. split; discriminate. }
    destruct (gcm_open C key (gcm_nonce dir_s2c (ps_counter m)) (ps_msg m)) as [pt|] eqn:Op.
    2:{ cbn [crun]. intros H. injection H as <- <-. split; discriminate. }
    rewrite crun_do. cbn [cexec fst snd c_buf c_set_in]. rewrite Hb.
    rewrite crun_do. cbn [cexec fst snd]. rewrite crun_do. cbn [cexec fst snd c_buf c_set_buf app].
    intros H. split.
    2:{ intros code msg ->. exfalso. revert H. unfold read_buffered. destruct (buffer_read pt n) as [[d t]|]; [|cbn; discriminate].
        rewrite crun_do. cbn. discriminate. }
    intros data eof ->. rewrite El in *.
    exists (b0 :: be_enc 8 (c_last s) ++ be_enc 8 (lenN (ps_msg m)) ++ ps_msg m), (ps_msg m), key, pt.
    assert (Hs' : c_in s' = i2 /\ data = takeN n pt /\ eof = (lenN pt <=? n) /\ c_buf s' = dropN n pt).
    { apply buffered_inv in H as [(-> & -> & -> & -> & ->)|(_ & -> & -> & ->)]; cbn [c_set_buf c_in c_set_in c_buf]; repeat split. }
    destruct Hs' as (E1 & E2 & E3 & E4). rewrite E1. split; [exists b0; repeat split; assumption|].
    split; [rewrite Hi, Hi2; cbn [app]; rewrite <- !app_assoc; reflexivity|]. repeat split; assumption.
  - rewrite crun_bind, crun_lift. cbn [c_set_in c_in].
    destruct (run (parse_error_resp rc) i1 (ce_end E)) as [[e|m] i2] eqn:R2.
    { cbn [fst snd crun]. intros H. injection H as <- <-. split; discriminate. }
    cbn [fst snd crun]. intros H. injection H as <- <-. split; [discriminate|]. intros code msg H. injection H as <- <-.
    exists b0. split; [exact Hb0|]. rewrite Hi. cbn [c_set_in c_in].
    unfold parse_error_resp in R2. apply run_pread in R2 as (cb & s1 & -> & Hcb & R2). apply run_pread in R2 as (sz & s2 & -> & Hsz & R2).
    assert (Hc : be_dec cb < 2 ^ 32) by exact (be_dec_lt_len cb 4 Hcb).
    cbv zeta in R2. destruct (N.ltb_spec 0 (be_dec sz)) as [Hp|Hp].
    + cbn [run] in R2. destruct (fl_copy (limit_of_size (be_dec sz)) s2 (ce_end E)) as [[d er] s3] eqn:F.
      destruct er as [er|]; [cbn in R2; discriminate|]. destruct (N.ltb_spec (be_dec sz) two63) as [H63|H63]; [|cbn in R2; discriminate].
      destruct (N.eqb_spec (lenN d) (be_dec sz)) as [Hd|Hd]; [|cbn in R2; discriminate].
      cbn [andb run] in R2. injection R2 as <- <-. cbn [er_code er_msg]. split; [exact Hc|]. split; [rewrite Hd; exact H63|].
      rewrite Hd, (enc_dec cb 4), (enc_dec sz 8) by assumption.
      assert (Hs2 : s2 = d ++ s3).
      { unfold limit_of_size in F. rewrite (proj2 (N.ltb_lt _ _) H63) in F. unfold fl_copy in F.
        destruct (be_dec sz <=? lenN s2); [injection F as <- <-; symmetry; apply takeN_dropN|].
        destruct (ce_end E); injection F; intros; try discriminate. subst d s3. rewrite app_nil_r. reflexivity. }
      rewrite Hs2. reflexivity.
    + cbn [run] in R2. injection R2 as <- <-. cbn [er_code er_msg]. split; [exact Hc|]. split; [reflexivity|].
      rewrite (enc_dec cb 4) by assumption. change (lenN []) with 0. replace (be_enc 8 0) with sz; [reflexivity|].
      rewrite <- (enc_dec sz 8) by assumption. f_equal. lia.
Qed.
Lemma read_inv C E o ses n s : c_buf s = [] -> forall r s', crun C E (client_read C o ses n) s = (Some r, s') ->
  (forall data eof, r = RdOk data eof ->
   exists oc ct key m, process_response_octets oc (c_last s) ct /\ c_in s = oc ++ c_in s' /\ client_gcm C (cs_secret ses) = Some key /\
     gcm_open C key (gcm_nonce dir_s2c (c_last s)) ct = Some m /\ data = takeN n m /\ eof = (lenN m <=? n) /\ c_buf s' = dropN n m) /\
  (forall code msg, r = RdErr (RdRemote code msg) ->
   exists b0, b2n b0 < 128 /\ code < 2 ^ 32 /\ lenN msg < 2 ^ 63 /\
     c_in s = b0 :: be_enc 4 code ++ be_enc 8 (lenN msg) ++ msg ++ c_in s').
Proof.
  intros Hb r s' H. rewrite read_split in H.
  assert (X : exists ok s1, c_buf s1 = c_buf s /\ c_in s1 = c_in s /\ c_last s1 = c_last s /\ forall f : bool -> cprog rd_result,
    crun C E (cbind (if co_rto o then cdo CDeadline else CRet true) f) s = crun C E (f ok) s1).
  { destruct (co_rto o); [exists (ce_deadline E (c_step s)), (c_tick s)|exists true, s]; repeat split. }
  destruct X as (ok & s1 & H1 & H2 & H3 & X). rewrite X in H. rewrite <- H2, <- H3. apply (read_rest_inv C E ses n ok s1); [congruence|exact H].
Qed.

(** ** C71 *)
Lemma read_after_write C E o ses p n s : c_buf s = [] ->
  let '(w, s1) := crun C E (client_write C o ses p) s in
  let '(r, s2) := crun C E (client_read C o ses n) s1 in
  (forall k e, w = Some (WrConn k e) -> c_last s1 = (c_ctr s + 1) mod 2 ^ 64 /\ c_ctr s1 = c_last s1) /\
  forall data eof, r = Some (RdOk data eof) ->
  exists oc ct key m, process_response_octets oc (c_last s1) ct /\ c_in s = oc ++ c_in s2 /\
    client_gcm C (cs_secret ses) = Some key /\ gcm_open C key (x01 :: repeat x00 3 ++ be_enc 8 (c_last s1)) ct = Some m /\
    data = takeN n m /\ eof = (lenN m <=? n) /\ c_buf s2 = dropN n m.
Proof.
  intros Hb. destruct (crun C E (client_write C o ses p) s) as [w s1] eqn:Ew.
  assert (HW : c_buf s1 = c_buf s /\ c_in s1 = c_in s /\
    forall k e, w = Some (WrConn k e) -> c_last s1 = (c_ctr s + 1) mod 2 ^ 64 /\ c_ctr s1 = c_last s1).
  { revert Ew. unfold client_write.
    assert (X : exists ok s1, c_ctr s1 = c_ctr s /\ c_buf s1 = c_buf s /\ c_in s1 = c_in s /\ forall f : bool -> cprog wr_result,
      crun C E (cbind (if co_wto o then cdo CDeadline else CRet true) f) s = crun C E (f ok) s1).
    { destruct (co_wto o); [exists (ce_deadline E (c_step s)), (c_tick s)|exists true, s]; repeat split. }
    destruct X as (ok & s0 & H1 & H2 & H3 & X). rewrite X. destruct ok; cbn [negb].
    2:{ cbn [crun]. intros H. injection H as <- <-. repeat split; try assumption; discriminate. }
    destruct (client_gcm C (cs_secret ses)) as [key|].
    2:{ cbn [crun]. intros H. injection H as <- <-. repeat split; try assumption; discriminate. }
    rewrite crun_do. cbn [cexec]. cbv zeta. cbn [fst snd]. rewrite H1. destruct (_ =? 0).
    { cbn [crun]. intros H. injection H as <- <-. cbn. repeat split; try assumption; discriminate. }
    rewrite crun_do. cbn [cexec fst snd]. rewrite crun_do. cbn [cexec fst snd]. rewrite crun_do. cbn [cexec].
    destruct (ce_write E _ _) as [k e]. cbv zeta. cbn [fst snd crun]. intros H. injection H as <- <-. cbn.
    repeat split; assumption. }
  destruct HW as (H1 & H2 & H3). destruct (crun C E (client_read C o ses n) s1) as [r s2] eqn:Er. split; [exact H3|].
  intros data eof ->. destruct (read_inv C E o ses n s1 ltac:(congruence) _ _ Er) as [R _].
  destruct (R data eof eq_refl) as (oc & ct & key & m & R1 & R2 & R3). exists oc, ct, key, m. rewrite <- H2. auto.
Qed.

(** ** C73 *)
Lemma remote_error_on_wire C E o ses n s code msg s' : c_buf s = [] ->
  crun C E (client_read C o ses n) s = (Some (RdErr (RdRemote code msg)), s') ->
  exists b0, b2n b0 < 128 /\ code < 2 ^ 32 /\ lenN msg < 2 ^ 63 /\
    c_in s = b0 :: be_enc 4 code ++ be_enc 8 (lenN msg) ++ msg ++ c_in s'.
Proof. intros Hb H. exact (proj2 (read_inv C E o ses n s Hb _ _ H) code msg eq_refl). Qed.

(** ** C76 *)
Lemma setup_elsewhere C (L : CryptoLaws C) E s id pub rest h i : request_ok (RqSetup id pub) ->
  s_in s = enc_request (RqSetup id pub) ++ rest -> e_quit E (s_step s) = false -> wf s ->
  length i = 16%nat -> (forall host, e_host E = Some host -> (h, i) <> (host, id) /\ ~ collision C h i host id) ->
  known C (snd (srun C E (conn_body C) s)) h i = known C s h i.
Proof.
  intros H1 H2 H3 H4 Hi Hd. pose proof (setup_spec C E s id pub rest L H1 H2 H3 H4) as P.
  destruct (srun C E (conn_body C) s) as [res s']. cbn [snd].
  destruct P as (_ & _ & [P|[P|P]]).
  - destruct P as (host & _ & _ & _ & _ & _ & Eh & _ & _ & _ & [_ K] & _). destruct (Hd host Eh) as [D1 D2].
    destruct (K h i Hi D1) as [K1|K1]; [exact K1|contradiction].
  - destruct P as (K & _). apply K.
  - destruct P as (host & _ & _ & _ & _ & Eh & _ & _ & [_ K] & _). destruct (Hd host Eh) as [D1 D2].
    destruct (K h i Hi D1) as [K1|K1]; [exact K1|contradiction].
Qed.

(** ** A Hello to a live server *)
Lemma e2e_hello C CE SE cs ss : (forall i x, ce_write CE i x = (lenN x, false)) -> writes_all SE -> (forall i, e_quit SE i = false) ->
  let '(r, ss') := srun C SE (conn_body C) (set_in ss [x11]) in
  let '(ok, cs') := crun C CE test_on_borrow (c_set_in cs (sent_by_server ss ss')) in
  sent_by_client cs cs' = [x11] /\ r = Some true /\ same_sessions C ss ss' /\ no_calls ss ss' /\ s_in ss' = [] /\
  ok = Some true /\ c_in cs' = [] /\ c_buf cs' = c_buf cs /\ c_last cs' = c_last cs /\ c_ctr cs' = c_ctr cs.
Proof.
  intros W SW Q. change [x11] with (enc_request RqHello). set (q := enc_request RqHello).
  assert (Hok : request_ok RqHello) by exact I.
  assert (Hin : s_in (set_in ss q) = enc_request RqHello ++ []) by (cbn [set_in s_in]; rewrite app_nil_r; reflexivity).
  pose proof (conn_body_ok C SE (set_in ss q) RqHello [] Hok Hin (Q _)) as R.
  destruct (srun C SE (conn_body C) (set_in ss q)) as [r ss'] eqn:ER. cbn [after] in R.
  match type of R with (_ = srun _ _ _ ?s0) => destruct (write_response_run C SE RsHello s0) as (n & ok & Hn & Hn2 & [(X & Xok)|(X & _)]) end.
  2:{ contradiction. }
  specialize (Xok SW).
  rewrite X in R. subst ok. injection R as -> ->.
  assert (RW : sent_by_server ss (add_sent (tick (set_in (tick (set_in ss q)) [])) (enc_response RsHello) n) = [x80]).
  { change [x80] with (enc_response RsHello). eapply responded_wire; [exact SW|exact ER|]. exists n. reflexivity. }
  change (enc_resp_common hello_response) with (enc_response RsHello). rewrite RW. destruct (TimedProofs.borrow_takes C CE (c_set_in cs [x80]) x80 [] eq_refl W) as (cs' & R' & I' & S' & L' & B' & T').
  rewrite R'. split; [|split; [reflexivity|split; [intros h i; reflexivity|split; [reflexivity|split; [reflexivity|]]]]].
  - unfold sent_by_client. rewrite S'. cbn [c_set_in c_sent]. rewrite skipn_app_exact. reflexivity.
  - repeat split; assumption.
Qed.
