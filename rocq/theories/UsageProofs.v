From Verif Require Import Bytes BytesProofs Parser ParserProofs Crypto Kdf Wire WireProofs WireSeq WireExtra Keys KeysProofs
  Replay SpecReplay Server ServerSeq SpecServer ServerProofs ServerProps ServerProps2 ServerProps3
  Client ClientSeq SpecClient ClientProofs ClientProps SpecE2E E2EProofs Usage.

Lemma read_all_app C E o ses size k acc s :
  crun C E (read_all C o ses size (S k) acc) s =
  match crun C E (client_read C o ses (size k)) s with
  | (None, s') => (None, s')
  | (Some (RdErr e), s') => (Some (Some (acc, Some e)), s')
  | (Some (RdOk d true), s') => (Some (Some (acc ++ d, None)), s')
  | (Some (RdOk d false), s') => crun C E (read_all C o ses size k (acc ++ d)) s'
  end.
Proof.
  cbn [read_all]. rewrite crun_bind. destruct (crun C E (client_read C o ses (size k)) s) as [[[d [|]|e]|] s']; reflexivity.
Qed.

Lemma same_writer_trans a b c : same_writer a b -> same_writer b c -> same_writer a c.
Proof. intros (? & ? & ? & ?) (? & ? & ? & ?). repeat split; congruence. Qed.

Lemma read_all_buffered C E o ses size : c_works E -> (forall i, 0 < size i) -> forall k acc s,
  c_buf s <> [] -> lenN (c_buf s) <= N.of_nat k ->
  exists s', crun C E (read_all C o ses size k acc) s = (Some (Some (acc ++ c_buf s, None)), s') /\
    c_in s' = c_in s /\ c_buf s' = [] /\ same_writer s s'.
Proof.
  intros W Hs. induction k as [|k IH]; intros acc s Hb Hk.
  - exfalso. apply Hb, lenN_0. lia.
  - rewrite read_all_app. destruct (read_buf_run C E o ses (size k) s W Hb) as (s1 & -> & I1 & B1 & W1).
    destruct (N.leb_spec (lenN (c_buf s)) (size k)) as [Hl|Hl].
    + exists s1. rewrite takeN_whole by exact Hl. rewrite dropN_whole in B1 by exact Hl. auto.
    + pose proof (Hs k) as Hpos.
      assert (L1 : lenN (c_buf s1) = lenN (c_buf s) - size k) by (rewrite B1; apply dropN_len).
      destruct (IH (acc ++ takeN (size k) (c_buf s)) s1) as (s2 & -> & I2 & B2 & W2).
      { intros X. rewrite X in L1. change (lenN []) with 0 in L1. lia. }
      { lia. }
      exists s2. rewrite B1, <- app_assoc, takeN_dropN. split; [reflexivity|]. split; [congruence|].
      split; [exact B2|exact (same_writer_trans _ _ _ W1 W2)].
Qed.

Lemma read_all_fresh C (L : CryptoLaws C) E o ses size k s oc rest key m :
  c_works E -> c_buf s = [] -> c_in s = oc ++ rest -> client_gcm C (cs_secret ses) = Some key -> m <> [] ->
  process_response_octets oc (c_last s) (gcm_seal C key (gcm_nonce dir_s2c (c_last s)) m) ->
  (forall i, 0 < size i) -> (length m <= k)%nat ->
  exists s', crun C E (read_all C o ses size k []) s = (Some (Some (m, None)), s') /\
    c_in s' = rest /\ c_buf s' = [] /\ same_writer s s'.
Proof.
  intros W Hb Hin K Hm Ho Hs Hk. destruct k as [|k]; [destruct m; [congruence|cbn in Hk; lia]|].
  rewrite read_all_app.
  destruct (read_fresh_run C E o ses (size k) s oc rest _ _ key W Hb Hin Ho K) as (r & s1 & -> & I1 & W1 & B1).
  rewrite N.eqb_refl, (gcm_open_seal _ L) in B1.
  assert (B2 : r = RdOk (takeN (size k) m) (lenN m <=? size k) /\ c_buf s1 = dropN (size k) m).
  { destruct m; [congruence|exact B1]. } clear B1. destruct B2 as [-> B1].
  destruct (N.leb_spec (lenN m) (size k)) as [Hl|Hl].
  - exists s1. rewrite takeN_whole by exact Hl. rewrite dropN_whole in B1 by exact Hl. auto.
  - pose proof (Hs k) as Hpos.
    assert (L1 : lenN (c_buf s1) = lenN m - size k) by (rewrite B1; apply dropN_len).
    destruct (read_all_buffered C E o ses size W Hs k ([] ++ takeN (size k) m) s1) as (s2 & -> & I2 & B2 & W2).
    { intros X. rewrite X in L1. change (lenN []) with 0 in L1. lia. }
    { unfold lenN at 2 in L1. lia. }
    exists s2. rewrite B1. cbn [app]. rewrite takeN_dropN. split; [reflexivity|]. split; [congruence|].
    split; [exact B2|exact (same_writer_trans _ _ _ W1 W2)].
Qed.

Lemma takeN_len_min {A} n (l : list A) : lenN (takeN n l) = N.min n (lenN l).
Proof. apply takeN_len. Qed.

Lemma read_full_fresh C (L : CryptoLaws C) E o ses n k s oc rest key m :
  c_works E -> c_buf s = [] -> c_in s = oc ++ rest -> client_gcm C (cs_secret ses) = Some key -> m <> [] ->
  process_response_octets oc (c_last s) (gcm_seal C key (gcm_nonce dir_s2c (c_last s)) m) ->
  0 < n ->
  exists s', crun C E (read_full C o ses n (S k) []) s =
      (Some (Some (takeN n m, if n <=? lenN m then None else Some FullUnexpected)), s') /\
    c_in s' = rest /\ c_buf s' = dropN n m /\ same_writer s s'.
Proof.
  intros W Hb Hin K Hm Ho Hn. cbn [read_full]. change (lenN []) with 0.
  destruct (N.leb_spec n 0) as [H0|_]; [lia|]. rewrite N.sub_0_r, crun_bind.
  destruct (read_fresh_run C E o ses n s oc rest _ _ key W Hb Hin Ho K) as (r & s1 & -> & I1 & W1 & B1).
  rewrite N.eqb_refl, (gcm_open_seal _ L) in B1.
  assert (B2 : r = RdOk (takeN n m) (lenN m <=? n) /\ c_buf s1 = dropN n m).
  { destruct m; [congruence|exact B1]. } clear B1. destruct B2 as [-> B1].
  assert (Hlen : 0 < lenN m) by (destruct m; [congruence|rewrite lenN_cons; lia]).
  exists s1. destruct (N.leb_spec (lenN m) n) as [Hl|Hl]; cbv zeta; cbn [app]; rewrite ?takeN_len.
  - destruct (N.leb_spec n (N.min n (lenN m))) as [H1|H1], (N.leb_spec n (lenN m)) as [H2|H2]; try lia; cbn [crun].
    + auto.
    + destruct (N.eqb_spec (N.min n (lenN m)) 0); [lia|]. auto.
  - destruct (N.leb_spec n (lenN m)) as [H2|H2]; [|lia].
    destruct k; cbn [read_full]; rewrite takeN_len; (destruct (N.leb_spec n (N.min n (lenN m))); [|lia]); cbn [crun]; auto.
Qed.

(** ** io.Copy *)
Lemma copy_fails C (L : CryptoLaws C) E o ses p ps s :
  c_works E -> length (cs_id ses) = 16%nat -> c_ctr s + 1 < two64 ->
  let '(r, s') := crun C E (copy_to C o ses (p :: ps) 0) s in
  r = Some (0, Some CopyInvalid) /\
  exists ct, let q := enc_request (RqProcess (cs_id ses) (c_ctr s + 1) ct (co_reply o)) in
    c_sent s' = c_sent s ++ [(q, lenN q)].
Proof.
  intros W Hid Hc. destruct (client_gcm_some C L (cs_secret ses)) as (key & K).
  pose proof (write_ok_run C L E o ses p s key W K) as R. pose proof (write_len C L E o ses p s W Hid) as WL.
  cbn [copy_to]. rewrite crun_bind.
  destruct (crun C E (client_write C o ses p) s) as [w s1]. cbv zeta in R.
  destruct R as (_ & _ & _ & [(R & _)|(_ & _ & _ & -> & Hs)]).
  - rewrite N.mod_small in R by exact Hc. lia.
  - destruct (WL _ _ _ eq_refl) as [WL1 _]. rewrite WL1. cbv zeta.
    destruct (N.ltb_spec (lenN p) (lenN p + 50)) as [_|H]; [|lia]. cbn [crun]. split; [reflexivity|].
    rewrite N.mod_small in Hs by exact Hc. eexists. exact Hs.
Qed.

(** ** Fetching a key over the protocol *)
Lemma fetch_protocol_run C E s alg raw rest :
  c_works E -> response_ok (RsFetchKey alg raw) -> c_in s = enc_response (RsFetchKey alg raw) ++ rest ->
  exists s', crun C E (fetch_protocol C) s =
    (Some (match pkix_parse C raw with Some pk => inr pk | None => inl FkKey end), s') /\
    c_in s' = rest /\ (let q := enc_request RqFetchKey in c_sent s' = c_sent s ++ [(q, lenN q)]) /\
    c_buf s' = c_buf s /\ c_ctr s' = c_ctr s /\ c_last s' = c_last s /\ c_seals s' = c_seals s.
Proof.
  intros W Hok Hin. unfold fetch_protocol.
  set (q := enc_req_common fetch_key_request).
  rewrite crun_do. cbn [cexec]. pose proof (proj1 W (c_step s) q) as [W1 W2].
  destruct (ce_write E (c_step s) q) as [n er]. cbn [fst snd] in W1, W2. subst er. cbv zeta. cbn [fst snd].
  rewrite N.min_r by exact W1.
  set (s1 := c_add_sent (c_tick s) q (lenN q)).
  rewrite crun_bind, crun_lift. change (c_in s1) with (c_in s). rewrite Hin.
  pose proof (read_response_rt C action_fetch_key (RsFetchKey alg raw) rest (ce_end E) Hok eq_refl) as RT.
  unfold read_response in RT. rewrite run_bind in RT.
  destruct (run parse_resp_common _ _) as [[e|rc] i1] eqn:E1; [discriminate|]. cbn [fst snd].
  destruct (rs_success rc); cbn [negb] in RT |- *.
  2:{ rewrite run_bind in RT. destruct (run _ i1 _) as [[e|er] i2]; discriminate. }
  change (action_fetch_key =? action_hello) with false in RT. change (action_fetch_key =? action_setup) with false in RT.
  change (action_fetch_key =? action_process) with false in RT.
  cbv iota in RT. rewrite run_bind in RT. rewrite crun_bind, crun_lift. cbn [c_in c_set_in].
  destruct (run (parse_fetch_resp rc) i1 (ce_end E)) as [[e|fk] i2] eqn:E2; [discriminate|]. cbn [fst snd run] in RT |- *.
  assert (fk_key fk = raw /\ i2 = rest) as (-> & ->) by (split; congruence). clear RT.
  destruct (pkix_parse C raw); (eexists; split; [reflexivity|]; repeat split).
Qed.

Lemma e2e_fetch_key C CE SE cs ss alg pk raw :
  c_works CE -> writes_all SE -> (forall i, e_quit SE i = false) -> (forall i, e_fetch SE i = KOk (alg, pk)) ->
  pkix_marshal C pk = Some raw -> lenN raw <= 2 ^ 16 -> alg < 256 ->
  let q := enc_request RqFetchKey in
  let '(r, ss') := srun C SE (conn_body C) (set_in ss q) in
  let '(x, cs') := crun C CE (fetch_protocol C) (c_set_in cs (sent_by_server ss ss')) in
  sent_by_client cs cs' = q /\ r = Some true /\ same_sessions C ss ss' /\ no_calls ss ss' /\ c_in cs' = [] /\
  x = Some (match pkix_parse C raw with Some k => inr k | None => inl FkKey end).
Proof.
  intros W SW Q F M Hl Ha. cbv zeta. set (q := enc_request RqFetchKey).
  assert (Hok : request_ok RqFetchKey) by exact I.
  assert (Hin : s_in (set_in ss q) = enc_request RqFetchKey ++ []) by (cbn [set_in s_in]; rewrite app_nil_r; reflexivity).
  pose proof (conn_body_ok C SE (set_in ss q) RqFetchKey [] Hok Hin (Q _)) as R.
  destruct (srun C SE (conn_body C) (set_in ss q)) as [r ss'] eqn:ER.
  cbn [after] in R. unfold fetch_key_handler in R. rewrite srun_bind in R. cbn [sdo srun sexec] in R. rewrite F in R.
  cbn [fst snd] in R. rewrite M in R.
  match type of R with (_ = srun _ _ (write_response _) ?s0) =>
    destruct (write_response_run C SE (RsFetchKey alg raw) s0) as (n & ok & Hn & Hn2 & [(X & Xok)|(X & _)]) end.
  2:{ contradiction. }
  specialize (Xok SW). cbn [enc_response] in X. rewrite X in R. subst ok. injection R as -> ->.
  assert (RW : sent_by_server ss (add_sent (tick (tick (set_in (tick (set_in ss q)) []))) (enc_response (RsFetchKey alg raw)) n)
               = enc_response (RsFetchKey alg raw)).
  { eapply responded_wire; [exact SW|exact ER|]. exists n. reflexivity. }
  cbn [enc_response] in RW. rewrite RW.
  destruct (fetch_protocol_run C CE (c_set_in cs (enc_fetch_resp (new_fetch_response alg raw))) alg raw [] W) as (cs' & R' & I' & S' & _).
  { split; [exact Ha|exact Hl]. }
  { cbn [c_set_in c_in enc_response]. rewrite app_nil_r. reflexivity. }
  rewrite R'. split; [|split; [reflexivity|split; [intros h i; reflexivity|split; [reflexivity|split; [exact I'|reflexivity]]]]].
  unfold sent_by_client. cbv zeta in S'. rewrite S'. cbn [c_set_in c_sent]. rewrite skipn_app_exact.
  unfold wire. cbn [map concat fst snd]. rewrite app_nil_r. apply takeN_all.
Qed.
