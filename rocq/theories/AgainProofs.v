From Verif Require Import Bytes BytesProofs Parser ParserProofs Crypto Kdf Wire WireProofs WireSeq Replay SpecReplay ReplayProofs
  Server ServerSeq SpecServer ServerProofs ServerProps ServerProps2 ServerProps3 Keys Client ClientSeq SpecClient ClientProofs ClientProps ClientProps2
  SpecE2E E2EProofs UdpTalk SpecAgain.

(** Write, whatever the connection does. *)
Lemma write_any_run C E o ses p s key : (forall i, ce_deadline E i = true) -> client_gcm C (cs_secret ses) = Some key ->
  c_ctr s + 1 < two64 ->
  let c := c_ctr s + 1 in
  let q := enc_request (RqProcess (cs_id ses) c (gcm_seal C key (gcm_nonce dir_c2s c) p) (co_reply o)) in
  exists i s', let n := N.min (fst (ce_write E i q)) (lenN q) in
  crun C E (client_write C o ses p) s = (Some (WrConn n (snd (ce_write E i q))), s') /\
  c_ctr s' = c /\ c_in s' = c_in s /\ c_buf s' = c_buf s /\ c_last s' = c /\ c_sent s' = c_sent s ++ [(q, n)] /\
  i = (if co_wto o then S (c_step s) else c_step s) /\ c_step s' = S i.
Proof.
  intros D K Hc. cbv zeta. unfold client_write. rewrite K. set (k := fun ok : bool => _).
  set (c := c_ctr s + 1). set (q := enc_request _).
  assert (G : forall s1, c_ctr s1 = c_ctr s -> c_sent s1 = c_sent s -> c_in s1 = c_in s -> c_buf s1 = c_buf s ->
    exists s', crun C E (k true) s1 = (Some (WrConn (N.min (fst (ce_write E (c_step s1) q)) (lenN q)) (snd (ce_write E (c_step s1) q))), s') /\
    c_ctr s' = c /\ c_in s' = c_in s /\ c_buf s' = c_buf s /\ c_last s' = c /\
    c_sent s' = c_sent s ++ [(q, N.min (fst (ce_write E (c_step s1) q)) (lenN q))] /\ c_step s' = S (c_step s1)).
  { intros s1 Hct Hs Hi Hb. unfold k. cbn [negb]. rewrite crun_do. cbn [cexec]. cbv zeta. cbn [fst snd].
    rewrite Hct. rewrite N.mod_small by exact Hc. fold c. destruct (N.eqb_spec c 0) as [E0|E0]; [unfold c in E0; lia|].
    rewrite crun_do. cbn [cexec fst snd]. rewrite crun_do. cbn [cexec fst snd]. rewrite crun_do. cbn [cexec].
    cbn [c_add_sent c_tick c_add_seal c_set_last c_set_ctr c_step c_ctr c_in c_buf c_last c_seals c_sent].
    change (enc_process_req _) with q. destruct (ce_write E (c_step s1) q) as [m er]. cbv zeta. cbn [fst snd crun].
    eexists. split; [reflexivity|].
    cbn [c_add_sent c_tick c_add_seal c_set_last c_set_ctr c_step c_ctr c_in c_buf c_last c_seals c_sent].
    rewrite Hs. auto 10. }
  destruct (co_wto o).
  - rewrite crun_bind. unfold cdo. cbn [crun cexec fst snd]. rewrite D.
    destruct (G (c_tick s)) as (s' & R & A1 & A2 & A3 & A4 & A5 & A6); auto. rewrite R.
    exists (S (c_step s)), s'. auto 10.
  - cbn [cbind]. destruct (G s) as (s' & R & A1 & A2 & A3 & A4 & A5 & A6); auto. rewrite R.
    exists (c_step s), s'. auto 10.
Qed.

(** The same connection, taking everything. *)
Definition mended (E : cenv) : cenv := {| ce_end := ce_end E; ce_write := fun _ b => (lenN b, false);
  ce_deadline := ce_deadline E; ce_fetch := ce_fetch E; ce_rand := ce_rand E; ce_gen := ce_gen E |}.
Lemma mended_works E : all_or_nothing E -> c_works (mended E).
Proof. intros [_ D]. split; [|exact D]. intros i b. cbn. split; [lia|reflexivity]. Qed.

Inductive no_write {A} : cprog A -> Prop :=
| nw_ret a : no_write (CRet a)
| nw_panic : no_write CPanic
| nw_do {R} (e : ceff R) k : (forall E C s, cexec C E e s = cexec C (mended E) e s /\ c_sent (snd (cexec C E e s)) = c_sent s) -> (forall r, no_write (k r)) -> no_write (CDo e k).
Lemma nw_bind {A B} (p : cprog A) (f : A -> cprog B) : no_write p -> (forall a, no_write (f a)) -> no_write (cbind p f).
Proof. intros H F. induction H; cbn; [apply F|constructor|constructor; auto]. Qed.
Lemma nw_cdo {R} (e : ceff R) : (forall E C s, cexec C E e s = cexec C (mended E) e s /\ c_sent (snd (cexec C E e s)) = c_sent s) -> no_write (cdo e).
Proof. intros H. unfold cdo. constructor; [exact H|]. intros r. constructor. Qed.
Lemma nw_lift {A} (p : parser A) : no_write (clift p).
Proof.
  induction p; cbn [clift]; try (constructor; fail).
  - apply nw_do; [|auto]. intros E C s. split; [reflexivity|]. cbn [cexec]. destruct (fl_read _ _ _). reflexivity.
  - apply nw_do; [|auto]. intros E C s. split; [reflexivity|]. cbn [cexec]. destruct (fl_copy _ _ _). reflexivity.
  - apply nw_do; [|auto]. intros E C s. split; reflexivity.
Qed.
Lemma nw_run {A} (p : cprog A) : no_write p -> forall C E s, crun C E p s = crun C (mended E) p s.
Proof. induction 1 as [| |R e k He _ IH]; intros C E s; cbn [crun]; [reflexivity|reflexivity|]. rewrite (proj1 (He E C s)). destruct (cexec C (mended E) e s). apply IH. Qed.
Lemma nw_sent {A} (p : cprog A) : no_write p -> forall C E s, c_sent (snd (crun C E p s)) = c_sent s.
Proof.
  induction 1 as [| |R e k He _ IH]; intros C E s; cbn [crun]; [reflexivity|reflexivity|].
  pose proof (proj2 (He E C s)) as H. destruct (cexec C E e s) as [r s1]. rewrite IH. exact H.
Qed.
Lemma nw_read C o ses n : no_write (client_read C o ses n).
Proof.
  assert (B : forall b, no_write (read_buffered b n)).
  { intros b. unfold read_buffered. destruct (buffer_read b n) as [[d r]|]; [|constructor].
    apply nw_bind; [apply nw_cdo; split; reflexivity|]. intros _. constructor. }
  unfold client_read. apply nw_bind.
  { destruct (co_rto o); [apply nw_cdo; split; reflexivity|constructor]. }
  intros [|]; cbn [negb]; [|constructor].
  apply nw_bind; [apply nw_cdo; split; reflexivity|]. intros b. destruct (0 <? lenN b); [apply B|].
  apply nw_bind; [apply nw_lift|]. intros [e|rc]; [constructor|]. destruct (negb (rs_success rc)).
  { apply nw_bind; [apply nw_lift|]. intros [e|er]; constructor. }
  apply nw_bind; [apply nw_lift|]. intros [e|r]; [constructor|].
  apply nw_bind; [apply nw_cdo; split; reflexivity|]. intros l. destruct (negb _); [constructor|].
  destruct (client_gcm C (cs_secret ses)) as [key|]; [|constructor]. destruct (gcm_open C key _ _) as [m|]; [|constructor].
  apply nw_bind; [apply nw_cdo; split; reflexivity|]. intros b1.
  apply nw_bind; [apply nw_cdo; split; reflexivity|]. intros _.
  apply nw_bind; [apply nw_cdo; split; reflexivity|]. intros b2. apply B.
Qed.

Lemma write_mended C E o ses p s n s' : all_or_nothing E ->
  crun C E (client_write C o ses p) s = (Some (WrConn n false), s') ->
  crun C (mended E) (client_write C o ses p) s = (Some (WrConn n false), s').
Proof.
  intros [W D]. unfold client_write. set (k := fun ok : bool => _).
  assert (G : forall s1, crun C E (k true) s1 = (Some (WrConn n false), s') -> crun C (mended E) (k true) s1 = (Some (WrConn n false), s')).
  { intros s1. unfold k. cbn [negb]. destruct (client_gcm C (cs_secret ses)) as [key|]; [|discriminate].
    rewrite !crun_do. cbn [cexec]. cbv zeta. cbn [fst snd].
    destruct (_ =? 0); [discriminate|].
    rewrite !crun_do. cbn [cexec fst snd].
    set (q := enc_process_req _).
    match goal with |- context [ce_write E ?i q] => specialize (W i q); destruct (ce_write E i q) as [m er] end.
    cbn [fst snd] in W. destruct W as [[= -> ->]|[W ->]].
    - cbv zeta. cbn [fst snd crun]. discriminate.
    - cbn [mended ce_write]. cbv zeta. rewrite N.min_r, N.min_id by exact W. auto. }
  destruct (co_wto o).
  - rewrite !crun_bind. unfold cdo. cbn [crun cexec fst snd]. cbn [mended ce_deadline]. rewrite D. apply G.
  - cbn [cbind]. apply G.
Qed.

Section Attempts.
  Variables (C : Crypto) (CE : cenv) (SE : senv) (o : copts) (chost : bytes).
  Hypothesis L : CryptoLaws C.
  Hypothesis WC : all_or_nothing CE.
  Hypothesis WS : writes_all SE.
  Hypothesis Q : forall i, e_quit SE i = false.
  Hypothesis Hh : e_host SE = Some chost.
  Hypothesis Ho : co_reply o = true.

  Lemma attempts_run ses n (f : bytes -> bytes) : forall ps hist cs ss,
    paired C ses chost hist cs ss -> Forall (fun c => c <= c_ctr cs) hist -> c_ctr cs + lenN ps < 2 ^ 64 ->
    Forall (fun p => lenN p + 16 <= 2 ^ 30) ps ->
    (forall i p, In p ps -> e_handler SE i true p = HOk (f p) /\ f p <> [] /\ lenN (f p) + 16 <= 2 ^ 30 /\ lenN (f p) <= n) ->
    let '(rs, cs', ss') := attempts C CE SE o ses n ps cs ss in
    Forall2 (fun p r => r = None \/ r = Some (Some (RdOk (f p) true))) ps rs /\
    map snd (s_calls ss') = map snd (s_calls ss) ++ written ps rs /\
    exists new, c_sent cs' = c_sent cs ++ new /\ Forall2 (fun r x => r = None <-> snd x = 0) rs new.
  Proof.
    induction ps as [|p ps IH]; intros hist cs ss P F Hc Hp HH; cbn [attempts].
    - split; [constructor|]. split; [rewrite app_nil_r; reflexivity|]. exists []. rewrite app_nil_r. split; [reflexivity|constructor].
    - rewrite lenN_cons in Hc. inversion Hp as [|? ? Hp1 Hp2]; subst.
      destruct (client_gcm_some C L (cs_secret ses)) as (key & K).
      destruct (write_any_run C CE o ses p cs key (proj2 WC) K ltac:(change two64 with (2^64); lia)) as (i & c1 & Rw & Wc & Wi & Wb & Wl & Ws & _).
      set (q := enc_request _) in *. destruct WC as [W D].
      destruct (W i q) as [Ew|[El Es]].
      + rewrite Rw, Ew. cbn [fst snd].
        specialize (IH hist c1 ss). destruct (attempts C CE SE o ses n ps c1 ss) as [[rs c3] s3].
        destruct IH as (I1 & I2 & new & I3 & I4).
        * destruct P as [P1 P2 P3 P4 P5]. split; auto. congruence.
        * rewrite Wc. eapply Forall_impl; [|exact F]. cbn. intros; lia.
        * rewrite Wc. lia.
        * exact Hp2.
        * intros j p' Hin. apply HH. right; exact Hin.
        * split; [constructor; [left; reflexivity|exact I1]|]. split; [exact I2|].
          eexists (_ :: new). split; [rewrite I3, Ws, <- app_assoc; reflexivity|]. rewrite Ew. constructor; [|exact I4].
          cbn [fst snd]. rewrite N.min_0_l. split; reflexivity.
      + rewrite Es in Rw. pose proof (write_mended C CE o ses p cs _ _ WC Rw) as Rm.
        pose proof (e2e_round C (mended CE) SE o chost L (mended_works _ WC) WS Q Hh Ho ses hist cs ss p n P ltac:(lia) (next_not_refused _ _ F) Hp1) as R.
        cbv zeta in R. unfold round in R. rewrite Rm in R. rewrite Rw.
        destruct (srun C SE (conn_body C) (set_in ss (sent_by_client cs c1))) as [x s1].
        rewrite <- (nw_run _ (nw_read C o ses n) C CE (c_set_in c1 (sent_by_server ss s1))) in R.
        pose proof (nw_sent _ (nw_read C o ses n) C CE (c_set_in c1 (sent_by_server ss s1))) as Hs2.
        destruct (crun C CE (client_read C o ses n) (c_set_in c1 (sent_by_server ss s1))) as [r c2]. cbn [snd c_set_in c_sent] in Hs2.
        destruct R as (_ & (ptr & Rc) & (j & out & Ro & -> & Rb) & Rctr & Ri & Rwf & Rk & _).
        { intros j. destruct (HH j p (or_introl eq_refl)) as (A1 & A2 & A3 & _). eauto. }
        destruct (HH j p (or_introl eq_refl)) as (A1 & A2 & A3 & A4). rewrite A1 in Ro. injection Ro as <-.
        assert (P1 : paired C ses chost (hist ++ [c_ctr cs + 1]) c2 s1).
        { destruct P as [P1 P2 P3 P4 P5]. split; auto.
          - apply Forall_app. split; [exact P4|]. constructor; [lia|constructor].
          - rewrite Rb. unfold dropN. apply N.leb_le in A4. rewrite A4. reflexivity. }
        specialize (IH _ _ _ P1). destruct (attempts C CE SE o ses n ps c2 s1) as [[rs c3] s3].
        destruct IH as (I1 & I2 & new & I3 & I4); auto.
        * rewrite Rctr. apply Forall_app. split; [|constructor; [lia|constructor]].
          rewrite Forall_forall in *. intros y Hy. apply F in Hy. lia.
        * lia.
        * intros k p' Hin. apply HH. right; exact Hin.
        * split; [constructor; [right|exact I1]|].
          { f_equal. f_equal. f_equal. unfold takeN. apply N.leb_le in A4. rewrite A4. reflexivity.
            apply N.leb_le. exact A4. }
          split; [rewrite I2, Rc, map_app, <- app_assoc; reflexivity|].
          eexists (_ :: new). split; [rewrite I3, Hs2, Ws, <- app_assoc; reflexivity|]. constructor; [|exact I4].
          cbn [snd]. split; [discriminate|]. intros H0. exfalso. rewrite N.min_r in H0 by exact El. discriminate H0.
  Qed.
End Attempts.

(** A frame cut short, and the next one taken for its end. *)
Lemma takeN_app_ge {A} (a b : list A) n : lenN a <= n -> takeN n (a ++ b) = a ++ takeN (n - lenN a) b.
Proof.
  intros H. unfold takeN. rewrite lenN_app.
  destruct (N.leb_spec (lenN a + lenN b) n), (N.leb_spec (lenN b) (n - lenN a)); try lia; [reflexivity|].
  rewrite firstn_app. unfold lenN in *. rewrite firstn_all2 by lia. f_equal. f_equal. lia.
Qed.
Lemma frame_graft id c ct1 x rp k : length id = 16%nat -> 34 <= k -> k <= lenN ct1 + 34 -> lenN x = lenN ct1 + 34 - k ->
  takeN k (enc_request (RqProcess id c ct1 rp)) ++ x = enc_request (RqProcess id c (takeN (k - 34) ct1 ++ x) rp).
Proof.
  intros Hid Hk Hk2 Hx.
  set (h := fun ct : bytes => let g := new_process_request id c ct rp in
    let flags := N.shiftr ((N.shiftl (pr_reserved g) 1) mod 256) 1 in
    let flags := if pr_reply g then N.lor flags (N.shiftl 1 7) else flags in
    enc_req_common (pr_common g) ++ [n2b flags] ++ id ++ be_enc 8 c ++ be_enc 8 (lenN ct)).
  assert (H : forall ct, enc_request (RqProcess id c ct rp) = h ct ++ ct).
  { intros ct. unfold h. cbn [enc_request]. unfold enc_process_req. cbn [new_process_request pr_id pr_counter pr_size pr_msg].
    cbv zeta. rewrite <- !app_assoc. reflexivity. }
  assert (Hl : forall ct, lenN (h ct) = 34).
  { intros ct. pose proof (len_process_req id c ct rp Hid) as G. rewrite H, lenN_app in G. lia. }
  rewrite !H, takeN_app_ge, Hl, <- app_assoc by (rewrite Hl; exact Hk).
  assert (E : h (takeN (k - 34) ct1 ++ x) = h ct1); [|rewrite E; reflexivity].
  unfold h. replace (lenN (takeN (k - 34) ct1 ++ x)) with (lenN ct1); [reflexivity|].
  rewrite lenN_app, takeN_len. lia.
Qed.

Lemma write_again C (L : CryptoLaws C) CE SE o chost ses hist cs ss p1 p2 k n : 
  (forall i, ce_deadline CE i = true) -> writes_all SE -> (forall i, e_quit SE i = false) -> e_host SE = Some chost ->
  paired C ses chost hist cs ss -> Forall (fun c => c <= c_ctr cs) hist -> c_ctr cs + 2 < 2 ^ 64 -> lenN p1 + 16 <= 2 ^ 30 ->
  34 <= k -> k < lenN p1 + 50 -> lenN p1 <= k + lenN p2 ->
  let '(w1, c1) := crun C CE (client_write C o ses p1) cs in
  let '(w2, c2) := crun C CE (client_write C o ses p2) c1 in
  w1 = Some (WrConn k true) -> w2 = Some (WrConn (lenN p2 + 50) false) ->
  let '(res, ss') := srun C SE (conn_body C) (set_in ss (sent_by_client cs c2)) in
  let '(r, c3) := crun C CE (client_read C o ses n) (c_set_in c2 (sent_by_server ss ss')) in
  exists key, client_gcm C (cs_secret ses) = Some key /\
  let f1 := enc_request (RqProcess (cs_id ses) (c_ctr cs + 1) (gcm_seal C key (gcm_nonce dir_c2s (c_ctr cs + 1)) p1) (co_reply o)) in
  let f2 := enc_request (RqProcess (cs_id ses) (c_ctr cs + 2) (gcm_seal C key (gcm_nonce dir_c2s (c_ctr cs + 2)) p2) (co_reply o)) in
  let m := lenN p1 + 50 - k in
  sent_by_client cs c2 = takeN k f1 ++ f2 /\
  (gcm_open C key (gcm_nonce dir_c2s (c_ctr cs + 1)) (dropN 34 (takeN k f1) ++ takeN m f2) = None ->
   s_calls ss' = s_calls ss /\ s_in ss' = dropN m f2 /\ res = Some true /\
   r = Some (RdErr (RdRemote 2 msg_decrypt))).
Proof.
  intros D WS Q Hh [Hwf Hid Hkn Hhist Hbuf] F Hc Hp Hk Hk1 Hk2.
  destruct (client_gcm_some C L (cs_secret ses)) as (key & K).
  destruct (write_any_run C CE o ses p1 cs key D K ltac:(change two64 with (2^64); lia)) as (i1 & c1 & R1 & Wc & Wi & Wb & Wl & Ws & _).
  rewrite R1.
  destruct (write_any_run C CE o ses p2 c1 key D K ltac:(change two64 with (2^64); lia)) as (i2 & c2 & R2 & Wc2 & Wi2 & Wb2 & Wl2 & Ws2 & _).
  rewrite R2. rewrite Wc in *. replace (c_ctr cs + 1 + 1) with (c_ctr cs + 2) in * by lia.
  set (ct1 := gcm_seal C key (gcm_nonce dir_c2s (c_ctr cs + 1)) p1) in *.
  set (ct2 := gcm_seal C key (gcm_nonce dir_c2s (c_ctr cs + 2)) p2) in *.
  set (f1 := enc_request (RqProcess _ _ ct1 _)) in *. set (f2 := enc_request (RqProcess _ _ ct2 _)) in *.
  assert (L1 : lenN ct1 = lenN p1 + 16) by apply (gcm_seal_len _ L).
  assert (L2 : lenN f2 = lenN p2 + 50) by (unfold f2; rewrite (len_process_req _ _ _ _ Hid); unfold ct2; rewrite (gcm_seal_len _ L); lia).
  intros H1 H2. injection H1 as H1 _. injection H2 as H2 _. rewrite H1 in Ws. rewrite H2 in Ws2.
  assert (Sq : sent_by_client cs c2 = takeN k f1 ++ f2).
  { unfold sent_by_client. rewrite Ws2, Ws, <- app_assoc, skipn_app_exact. unfold wire. cbn [app map concat fst snd]. rewrite app_nil_r. f_equal.
    rewrite <- L2. apply takeN_all. }
  rewrite Sq. set (m := lenN p1 + 50 - k).
  assert (Lm : lenN (takeN m f2) = lenN ct1 + 34 - k) by (rewrite takeN_len, L1, L2; unfold m; lia).
  assert (Fr : takeN k f1 ++ f2 = enc_request (RqProcess (cs_id ses) (c_ctr cs + 1) (takeN (k - 34) ct1 ++ takeN m f2) (co_reply o)) ++ dropN m f2).
  { unfold f1. rewrite <- frame_graft, <- app_assoc, takeN_dropN by (auto; rewrite ?L1; lia). reflexivity. }
  assert (Dr : dropN 34 (takeN k f1) = takeN (k - 34) ct1).
  { pose proof (frame_graft (cs_id ses) (c_ctr cs + 1) ct1 (takeN m f2) (co_reply o) k Hid Hk ltac:(rewrite L1; lia) Lm) as G. fold f1 in G.
    pose proof (len_process_req (cs_id ses) (c_ctr cs + 1) (takeN (k - 34) ct1 ++ takeN m f2) (co_reply o) Hid) as G2.
    revert G G2. cbn [enc_request]. unfold enc_process_req at 1 2. cbn [new_process_request pr_id pr_counter pr_size pr_msg pr_common].
    intros G G2. rewrite !app_assoc in G. apply app_inv_tail in G. rewrite !app_assoc in G2. rewrite G. 
    apply dropN_app. rewrite !lenN_app in *. lia. }
  set (msg := takeN (k - 34) ct1 ++ takeN m f2) in *.
  destruct (srun C SE (conn_body C) (set_in ss (takeN k f1 ++ f2))) as [res ss'] eqn:R.
  destruct (crun C CE (client_read C o ses n) (c_set_in c2 (sent_by_server ss ss'))) as [r c3] eqn:Rr.
  exists key. split; [exact K|]. cbv zeta. fold f1 f2 m. split; [reflexivity|]. intros Ho0.
  assert (Ho : gcm_open C key (gcm_nonce dir_c2s (c_ctr cs + 1)) msg = None) by (unfold msg; rewrite <- Dr; exact Ho0). clear Ho0.
  assert (Hok : request_ok (RqProcess (cs_id ses) (c_ctr cs + 1) msg (co_reply o))).
  { split; [exact Hid|]. split; [change two64 with (2^64); lia|]. unfold msg. rewrite lenN_app, takeN_len, Lm, L1. change max_message_size with (2^30). lia. }
  assert (Hwf' : wf (set_in ss (takeN k f1 ++ f2))) by (apply (wf_same ss); auto).
  pose proof (process_unauthentic_text C SE (set_in ss (takeN k f1 ++ f2)) chost (cs_id ses) msg (dropN m f2) (c_ctr cs + 1) (co_reply o) Hok Fr (Q _) Hh
    _ hist Hkn Hhist eq_refl Hwf' (next_not_refused _ _ F) key (eq_trans (eq_sym (client_server_gcm C _)) K) Ho) as P.
  rewrite R in P. destruct P as (P1 & P2 & _ & P4 & P5).
  split; [exact P2|]. split; [exact P4|]. split; [exact (P5 WS)|].
  assert (DW : c_works (mended CE)) by (split; [intros; cbn; split; [lia|reflexivity]|exact D]).
  pose proof (any_error C L (mended CE) o ses n (c_set_in c2 (sent_by_server ss ss')) 2 msg_decrypt [] DW) as AE.
  rewrite <- (nw_run _ (nw_read C o ses n) C CE), Rr in AE. cbn [fst] in AE. apply AE.
  - cbn [c_set_in c_buf]. congruence.
  - split; vm_compute; reflexivity.
  - cbn [c_set_in c_in]. rewrite app_nil_r. exact (responded_wire C SE _ _ _ _ _ _ WS R P1).
Qed.
