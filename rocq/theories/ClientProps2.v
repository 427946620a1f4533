From Verif Require Import Bytes BytesProofs Parser Crypto Kdf Wire WireProofs WireSeq Server Keys Client ClientSeq SpecClient ClientProofs.

Lemma leftover_after_write C (L : CryptoLaws C) E o ses p n s : c_works E -> c_buf s <> [] ->
  let '(w, s1) := crun C E (client_write C o ses p) s in
  fst (crun C E (client_read C o ses n) s1) = Some (RdOk (takeN n (c_buf s)) (lenN (c_buf s) <=? n)).
Proof.
  intros W Hb. destruct (client_gcm_some C L (cs_secret ses)) as (key & K).
  pose proof (write_ok_run C L E o ses p s key W K) as H. cbv zeta in H.
  destruct (crun C E (client_write C o ses p) s) as [w s1]. destruct H as (_ & _ & Hbf & _).
  destruct (read_buf_run C E o ses n s1 W) as (s2 & -> & _); [congruence|]. rewrite Hbf. reflexivity.
Qed.

Lemma any_error C (L : CryptoLaws C) E o ses n s code msg rest : c_works E -> c_buf s = [] ->
  response_ok (RsError code msg) -> c_in s = enc_response (RsError code msg) ++ rest ->
  fst (crun C E (client_read C o ses n) s) = Some (RdErr (RdRemote code msg)).
Proof.
  intros W Hb Hok Hin. change (client_read C o ses n) with
    (cbind (if co_rto o then cdo CDeadline else CRet true) (read_after_deadline C ses n)).
  destruct (deadline_ok C E W (co_rto o) (read_after_deadline C ses n) s) as (s1 & -> & Hi & Hs & Hc1 & Hl & Hbf & Hse).
  unfold read_after_deadline. cbn [negb]. rewrite crun_do. cbn [cexec fst snd]. rewrite Hbf, Hb.
  change (0 <? lenN []) with false. cbv iota. rewrite crun_bind, crun_lift, Hi, Hin.
  set (m := new_error_response code msg).
  assert (Hm : error_resp_ok m) by (constructor; cbn; try apply Hok; reflexivity).
  cbn [enc_response]. fold m. unfold enc_error_resp. rewrite <- app_assoc, resp_common_rt by apply Hm.
  cbn [fst snd]. change (rs_success (er_common m)) with false. cbn [negb].
  rewrite crun_bind, crun_lift. cbn [c_in c_set_in]. rewrite <- !app_assoc, error_resp_rt_body by exact Hm.
  reflexivity.
Qed.

Lemma late_reply C (L : CryptoLaws C) E o ses n f ct : c_works E ->
  (forall c, c < two64 -> process_response_octets (f c) c (ct c)) ->
  forall ps s, c_buf s = [] -> c_in s = f (c_last s) -> c_ctr s = c_last s -> c_last s + lenN ps < two64 ->
  exchanges C E o ses n f ps s = map (fun _ => Some (RdErr RdCounter)) ps.
Proof.
  intros W Hf. destruct (client_gcm_some C L (cs_secret ses)) as (key & K).
  induction ps as [|p ps IH]; intros s Hb Hin Hc Hlt; [reflexivity|]. cbn [exchanges map].
  rewrite lenN_cons in Hlt.
  pose proof (write_ok_run C L E o ses p s key W K) as H. cbv zeta in H.
  destruct (crun C E (client_write C o ses p) s) as [w s1]. destruct H as (Hc1 & Hi1 & Hb1 & H).
  rewrite N.mod_small in Hc1, H by lia. destruct H as [[H _]|(_ & Hl1 & _)]; [lia|].
  set (s2 := c_set_in s1 (c_in s1 ++ f (c_last s1))).
  assert (Hlast : c_last s < two64) by lia.
  destruct (read_fresh_run C E o ses n s2 (f (c_last s)) (f (c_last s1)) (c_last s) (ct (c_last s)) key W)
    as (r & s3 & -> & I3 & (_ & C3 & L3 & _) & B).
  - cbn. congruence.
  - cbn. rewrite Hi1, Hin. reflexivity.
  - apply Hf, Hlast.
  - exact K.
  - cbn [s2 c_set_in c_last c_ctr] in B, L3, C3.
    destruct (N.eqb_spec (c_last s) (c_last s1)); [lia|]. destruct B as [-> B3]. f_equal.
    apply IH; auto; rewrite ?L3, ?C3; try lia. exact I3.
Qed.
