(** A whole conversation of a client and its connection when the shared counter
    and the replay filter are answered from outside. *)
From Verif Require Import Bytes BytesProofs Parser ParserProofs Crypto Kdf Wire WireProofs WireSeq WireExtra Replay SpecReplay
  ReplayProofs Server ServerSeq SpecServer ServerProofs ServerProps ServerProps2 ServerProps3 MultiConn SpecMulti Keys KeysProofs
  Client ClientSeq SpecClient ClientProofs LostProofs SpecE2E E2EProofs System SpecSystem Team SpecTeam Kahn Duo DuoRun ODuo.

(** ** How long the programs are *)
Fixpoint pdeep (d : nat) {B} (p : parser B) {struct p} : Prop :=
  match p, d with
  | PRead _ k, S d' => forall r, pdeep d' (k r)
  | PCopy _ k, S d' => forall r, pdeep d' (k r)
  | PAlloc _ k, S d' => pdeep d' k
  | PRet _, _ | PFail _, _ => True
  | _, O => False
  end.
Lemma sdeep_lift {B} (p : parser B) : forall d, pdeep d p -> sdeep d (slift p).
Proof. induction p as [a|er|n k IH|n k IH|n k IH]; intros [|d]; cbn; auto. Qed.
Lemma cdeep_lift {B} (p : parser B) : forall d, pdeep d p -> cdeep d (clift p).
Proof. induction p as [a|er|n k IH|n k IH|n k IH]; intros [|d]; cbn; auto. Qed.
Lemma sdeep_mono {B} (p : sprog B) : forall d d', (d <= d')%nat -> sdeep d p -> sdeep d' p.
Proof.
  induction p as [a| |R e k IH]; intros d d' Hd; cbn; auto. destruct d as [|d]; [contradiction|].
  destruct d' as [|d']; [lia|]. intros H r. apply (IH r d); [lia|apply H].
Qed.
Lemma cdeep_mono {B} (p : cprog B) : forall d d', (d <= d')%nat -> cdeep d p -> cdeep d' p.
Proof.
  induction p as [a| |R e k IH]; intros d d' Hd; cbn; auto. destruct d as [|d]; [contradiction|].
  destruct d' as [|d']; [lia|]. intros H r. apply (IH r d); [lia|apply H].
Qed.
Lemma sdeep_bind a b {B D} (p : sprog B) (f : B -> sprog D) : sdeep a p -> (forall x, sdeep b (f x)) -> sdeep (a + b) (sbind p f).
Proof.
  revert a. induction p as [x| |R e k IH]; intros a Hp Hf; cbn [sbind].
  - apply (sdeep_mono _ b); [lia|apply Hf].
  - exact I.
  - destruct a as [|a]; [contradiction|]. intros r. apply IH; [apply Hp|exact Hf].
Qed.
Lemma cdeep_bind a b {B D} (p : cprog B) (f : B -> cprog D) : cdeep a p -> (forall x, cdeep b (f x)) -> cdeep (a + b) (cbind p f).
Proof.
  revert a. induction p as [x| |R e k IH]; intros a Hp Hf; cbn [cbind].
  - apply (cdeep_mono _ b); [lia|apply Hf].
  - exact I.
  - destruct a as [|a]; [contradiction|]. intros r. apply IH; [apply Hp|exact Hf].
Qed.
Ltac pd := repeat first [exact I | progress intros | progress (cbn [pdeep pbind pread palloc]) |
  match goal with |- pdeep _ (pbind (match ?x with _ => _ end) _) => destruct x | |- pdeep _ (match ?x with _ => _ end) => destruct x end].
Lemma pd_req : pdeep 1 parse_req_common. Proof. unfold parse_req_common, pcopy1. pd. Qed.
Lemma pd_setup C rc : pdeep 4 (parse_setup_req C rc). Proof. unfold parse_setup_req, parse_ecdh. pd. Qed.
Lemma pd_process rc : pdeep 6 (parse_process_req rc). Proof. unfold parse_process_req, pcopy1. pd. Qed.
Lemma pd_resp : pdeep 1 parse_resp_common. Proof. unfold parse_resp_common, pcopy1. pd. Qed.
Lemma pd_error rc : pdeep 3 (parse_error_resp rc). Proof. unfold parse_error_resp. pd. Qed.
Lemma pd_presp rc : pdeep 4 (parse_process_resp rc). Proof. unfold parse_process_resp. pd. Qed.

Ltac sd := repeat first [exact I | progress intros | progress (cbn [sdeep cdeep sbind sdo cbind cdo]) |
  match goal with |- sdeep _ (match ?x with _ => _ end) => destruct x | |- cdeep _ (match ?x with _ => _ end) => destruct x end].
Lemma sd_error b d : sdeep (S d) (write_error_response b). Proof. unfold write_error_response. sd. Qed.
Lemma sd_reply c m d : sdeep (S d) (reply_error c m). Proof. apply sd_error. Qed.
Lemma sd_response b d : sdeep (S (S d)) (write_response b). Proof. unfold write_response. sd. apply sd_error. Qed.
Ltac sd' := repeat first [exact I | apply sd_error | apply sd_reply | apply sd_response | progress intros | progress (cbn [sdeep sbind sdo]) |
  match goal with |- sdeep _ (match ?x with _ => _ end) => destruct x end].
Lemma sd_setup C m : sdeep 8 (setup_after C m). Proof. unfold setup_after. sd'. Qed.
Lemma sd_process C m : sdeep 8 (process_after C m). Proof. unfold process_after. sd'. Qed.
Lemma sd_fetch C : sdeep 8 (fetch_key_handler C). Proof. unfold fetch_key_handler. sd'. Qed.
Lemma body_deep C : sdeep 20 (conn_body C).
Proof.
  unfold conn_body. cbn [sbind sdo sdeep]. intros [|]; [exact I|]. unfold one_request.
  apply (sdeep_bind 1 18); [apply sdeep_lift, pd_req|]. intros [e|rc]; [exact I|].
  destruct (_ =? _); [|exact I]. unfold handle.
  destruct (_ =? _); [apply sd_response|]. destruct (_ =? _).
  { unfold setup_handler. apply (sdeep_bind 4 14); [apply sdeep_lift, pd_setup|]. intros [e|m]; [apply sd_reply|].
    apply (sdeep_mono _ 8); [lia|apply sd_setup]. }
  destruct (_ =? _).
  { unfold process_handler. apply (sdeep_bind 6 12); [apply sdeep_lift, pd_process|]. intros [e|m]; [apply sd_reply|].
    apply (sdeep_mono _ 8); [lia|apply sd_process]. }
  destruct (_ =? _); [apply (sdeep_mono _ 8); [lia|apply sd_fetch]|exact I].
Qed.
Lemma write_deep C o ses p : cdeep 5 (client_write C o ses p).
Proof.
  unfold client_write. apply (cdeep_bind 1 4); [destruct (co_wto o); sd|]. intros [|]; [|exact I]. cbn [negb]. sd.
Qed.
Lemma buffered_deep b n : cdeep 3 (read_buffered b n).
Proof. unfold read_buffered. sd. Qed.
Lemma read_deep C o ses n : cdeep 15 (client_read C o ses n).
Proof.
  unfold client_read. apply (cdeep_bind 1 14); [destruct (co_rto o); sd|]. intros [|]; [|exact I]. cbn [negb].
  cbn [cbind cdo cdeep]. intros buf. destruct (_ <? _); [apply (cdeep_mono _ 3); [lia|apply buffered_deep]|].
  apply (cdeep_bind 1 12); [apply cdeep_lift, pd_resp|]. intros [e|rc]; [exact I|]. destruct (negb _).
  - apply (cdeep_bind 3 9); [apply cdeep_lift, pd_error|]. intros [|]; exact I.
  - apply (cdeep_bind 4 8); [apply cdeep_lift, pd_presp|]. intros [|]; [exact I|]. sd.
    apply (cdeep_mono _ 3); [lia|apply buffered_deep].
Qed.

(** ** Reading asks for no counter *)
Lemma noadd_lift {B} (p : parser B) : noadd (clift p).
Proof. induction p as [a|er|n k IH|n k IH|n k IH]; cbn [clift noadd]; auto. Qed.
Lemma noadd_bind {B D} (p : cprog B) (f : B -> cprog D) : noadd p -> (forall x, noadd (f x)) -> noadd (cbind p f).
Proof. induction p as [a| |R e k IH]; cbn [cbind noadd]; auto. intros [H1 H2] Hf. split; auto. Qed.
Lemma noadd_buffered b n : noadd (read_buffered b n).
Proof. unfold read_buffered. repeat first [exact I | progress intros | split | progress (cbn [noadd cbind cdo]) |
  match goal with |- noadd (match ?x with _ => _ end) => destruct x end]. Qed.
Lemma read_noadd C o ses n : noadd (client_read C o ses n).
Proof.
  unfold client_read. apply noadd_bind; [destruct (co_rto o); cbn; auto|]. intros [|]; [|exact I]. cbn [negb].
  cbn [cbind cdo noadd]. split; [exact I|]. intros buf. destruct (_ <? _); [apply noadd_buffered|].
  apply noadd_bind; [apply noadd_lift|]. intros [e|rc]; [exact I|]. destruct (negb _).
  - apply noadd_bind; [apply noadd_lift|]. intros [|]; exact I.
  - apply noadd_bind; [apply noadd_lift|]. intros [|]; [exact I|].
    repeat first [exact I | apply noadd_buffered | progress intros | split | progress (cbn [noadd cbind cdo]) |
      match goal with |- noadd (match ?x with _ => _ end) => destruct x end].
Qed.

(** ** Labels *)
Definition good (key : bytes) (q0 : nat) (l : slab) : Prop :=
  match l with LQuiet => True | LLoad k => k = key | LCheck p _ => p = q0 | LSecret p => p = q0 | LBad => False end.
Definition checked (t : list slab) : list N := flat_map (fun l => match l with LCheck _ c => [c] | _ => [] end) t.
Lemma checked_app t u : checked (t ++ u) = checked t ++ checked u.
Proof. apply flat_map_app. Qed.
Lemma quiet_good key q0 t : Forall (fun l => l = LQuiet) t -> Forall (good key q0) t /\ checked t = [].
Proof. induction 1 as [|l t -> Ht [IH1 IH2]]; [split; [constructor|reflexivity]|]. split; [constructor; [exact I|exact IH1]|exact IH2]. Qed.

Ltac qt := repeat first [exact I | progress intros | split | reflexivity | progress (cbn [quiet sbind sdo]) |
  match goal with |- quiet (match ?x with _ => _ end) => destruct x end].
Lemma quiet_error b : quiet (write_error_response b). Proof. unfold write_error_response. qt. Qed.
Lemma quiet_reply c m : quiet (reply_error c m). Proof. apply quiet_error. Qed.
Lemma quiet_response b : quiet (write_response b).
Proof. unfold write_response. cbn [quiet sbind sdo]. split; [reflexivity|]. intros [n [[|]|]]; try exact I. destruct (0 <? n); [exact I|apply quiet_error]. Qed.

Section Server.
  Variables (C : Crypto) (SE : senv) (ck : nat -> bool) (chost : bytes) (q0 : nat) (secret : bytes).
  Hypothesis WS : writes_all SE.
  Hypothesis Q : forall i, e_quit SE i = false.
  Hypothesis Hh : e_host SE = Some chost.
  Notation osrun := (osrun C SE ck).
  Notation olabs := (olabs C SE ck).

  Lemma obody s j id ctr msg reply rest : request_ok (RqProcess id ctr msg reply) ->
    s_in s = enc_request (RqProcess id ctr msg reply) ++ rest ->
    let m := new_process_request id ctr msg reply in
    osrun (conn_body C) s j = osrun (process_after C m) (set_in (tick s) rest) j /\
    exists t, olabs (conn_body C) s j = t ++ olabs (process_after C m) (set_in (tick s) rest) j /\ Forall (fun l => l = LQuiet) t.
  Proof.
    intros (Hid & Hc & Hm) Hin. cbn zeta. unfold conn_body. rewrite osrun_bind, olabs_bind.
    cbn [sdo ODuo.osrun ODuo.olabs osexec sexec fst snd]. rewrite Q. cbn [fst snd]. cbn iota.
    unfold one_request. rewrite osrun_bind, olabs_bind.
    destruct (osrun_quiet C SE ck _ (quiet_lift parse_req_common) (tick s) j) as [-> F1]. rewrite srun_lift.
    change (s_in (tick s)) with (s_in s). rewrite Hin. cbn [enc_request]. unfold enc_process_req.
    rewrite <- app_assoc, req_common_rt by (split; reflexivity).
    cbn [fst snd]. unfold handle. cbn [new_process_request pr_common rq_version rq_action].
    change (version1 =? version1) with true. change (action_process =? action_hello) with false.
    change (action_process =? action_setup) with false.
    change (action_process =? action_process) with true. cbn iota.
    unfold process_handler. rewrite osrun_bind, olabs_bind.
    match goal with |- context [ODuo.osrun C SE ck (slift ?p) ?x j] =>
      destruct (osrun_quiet C SE ck (slift p) (quiet_lift p) x j) as [E2 F2] end.
    rewrite E2. rewrite srun_lift. cbn [set_in s_in].
    assert (Hok : process_req_ok (new_process_request id ctr msg reply)).
    { constructor; auto; try reflexivity. split; reflexivity. }
    pose proof (process_req_rt_body (new_process_request id ctr msg reply) rest (e_end SE) Hok) as P.
    unfold process_flags in P.
    cbn [new_process_request pr_common pr_reply pr_reserved pr_id pr_counter pr_size pr_msg] in *.
    rewrite <- !app_assoc in *. cbn [app] in *. rewrite P in *. cbn [fst snd] in *.
    split; [reflexivity|].
    match goal with |- exists t, _ :: ?u ++ ?v ++ ?w = _ /\ _ => exists (LQuiet :: u ++ v) end.
    split; [cbn [app]; rewrite <- app_assoc; reflexivity|].
    constructor; [reflexivity|]. apply Forall_app. split; [exact F1|exact F2].
  Qed.

  Lemma oprocess s j id ctr ct reply gk p out :
    s_map s (session_key C chost id) = Some q0 -> ses_secret (s_heap s q0) = secret -> new_gcm C secret = Some gk ->
    gcm_open C gk (gcm_nonce dir_c2s ctr) ct = Some p -> (forall i, e_handler SE i reply p = HOk out) ->
    let m := new_process_request id ctr ct reply in
    exists s' b, osrun (process_after C m) s j = (Some true, (s', S j)) /\
      s_in s' = s_in s /\ s_map s' = s_map s /\ s_heap s' = s_heap s /\
      wire (s_sent s') = wire (s_sent s) ++ b /\
      (if ck j then s_calls s' = s_calls s ++ [(q0, ctr, reply, p)] /\
                    b = (if reply then enc_response (RsProcess ctr (gcm_seal C gk (gcm_nonce dir_s2c ctr) out)) else [])
       else s_calls s' = s_calls s /\ b = enc_response (RsError 5 msg_replay)) /\
      Forall (good (session_key C chost id) q0) (olabs (process_after C m) s j) /\
      checked (olabs (process_after C m) s j) = [ctr].
  Proof.
    intros Hk Hs Hg Ho Hf. cbn zeta. unfold process_after.
    cbn [new_process_request pr_id pr_counter pr_reply pr_msg].
    cbn [sdo sbind ODuo.osrun ODuo.olabs osexec sexec fst snd lab_of]. rewrite Hh.
    cbn [sdo sbind ODuo.osrun ODuo.olabs osexec sexec fst snd lab_of]. rewrite Hk.
    cbn [sdo sbind ODuo.osrun ODuo.olabs osexec sexec fst snd lab_of].
    destruct (ck j); cbn [negb].
    2:{ destruct (osrun_quiet C SE ck _ (quiet_reply code_replay msg_replay) s (S j)) as [-> F].
        destruct (reply_error_run C SE code_replay msg_replay s) as (n & ok & -> & Hn & Hok & HW).
        rewrite (HW WS) in *. cbn [fst snd]. exists (add_sent (tick s) (enc_response (RsError code_replay msg_replay)) n), (enc_response (RsError 5 msg_replay)).
        destruct (quiet_good (session_key C chost id) q0 _ F) as [F1 F2].
        split; [reflexivity|]. do 3 (split; [reflexivity|]). split.
        { cbn [add_sent s_sent tick]. rewrite wire_app, wire_one, (Hok eq_refl), takeN_all. reflexivity. }
        split; [split; reflexivity|]. split; [repeat first [exact F1 | apply Forall_cons; [first [exact I|reflexivity]|]]|]. cbn [checked flat_map app]. f_equal. exact F2. }
    cbn [sdo sbind ODuo.osrun ODuo.olabs osexec sexec fst snd lab_of]. rewrite Hs, Hg, Ho.
    cbn [sdo sbind ODuo.osrun ODuo.olabs osexec sexec fst snd lab_of]. rewrite Hf.
    destruct reply.
    2:{ cbn [ODuo.osrun ODuo.olabs]. eexists _, []. split; [reflexivity|]. do 3 (split; [reflexivity|]).
        split; [cbn; rewrite app_nil_r; reflexivity|]. split; [split; reflexivity|]. split; [repeat constructor|reflexivity]. }
    cbn [sdo sbind ODuo.osrun ODuo.olabs osexec sexec fst snd lab_of].
    set (s1 := add_call (tick s) (q0, ctr, true, p)).
    set (r := RsProcess ctr (gcm_seal C gk (gcm_nonce dir_s2c ctr) out)).
    change (enc_process_resp (new_process_response ctr (gcm_seal C gk (gcm_nonce dir_s2c ctr) out))) with (enc_response r).
    destruct (osrun_quiet C SE ck _ (quiet_response (enc_response r)) s1 (S j)) as [-> F].
    destruct (write_response_run C SE r s1) as (n & ok & Hn & Hok & [[-> HW]|[HW _]]); [|contradiction].
    rewrite (HW WS) in *. cbn [fst snd].
    destruct (quiet_good (session_key C chost id) q0 _ F) as [F1 F2].
    eexists _, (enc_response r). split; [reflexivity|]. do 3 (split; [reflexivity|]). split.
    { cbn [add_sent s_sent tick]. rewrite wire_app, wire_one, (Hok eq_refl), takeN_all. reflexivity. }
    split; [split; reflexivity|]. split; [repeat first [exact F1 | apply Forall_cons; [first [exact I|reflexivity]|]]|]. cbn [checked flat_map app]. f_equal. exact F2.
  Qed.
End Server.

Section Client.
  Variables (C : Crypto) (CE : cenv) (ca : nat -> N).
  Hypothesis WC : c_works CE.
  Notation ocrun := (ocrun C CE ca).

  Lemma ocrun_do {B D} (p : cprog B) (f : B -> cprog D) : forall s k,
    ocrun (cbind p f) s k = match ocrun p s k with (Some a, (s', k')) => ocrun (f a) s' k' | (None, sj) => (None, sj) end.
  Proof.
    induction p as [a| |R e g IH]; intros s k; cbn [cbind ODuo.ocrun]; [reflexivity..|].
    destruct (ocexec C CE ca e s k) as [r [s' k']]. apply IH.
  Qed.

  Lemma owrite o ses p s k key : client_gcm C (cs_secret ses) = Some key -> ca k <> 0 ->
    let q := enc_request (RqProcess (cs_id ses) (ca k) (gcm_seal C key (gcm_nonce dir_c2s (ca k)) p) (co_reply o)) in
    exists s', ocrun (client_write C o ses p) s k = (Some (WrConn (lenN q) false), (s', S k)) /\
      c_in s' = c_in s /\ c_buf s' = c_buf s /\ c_last s' = ca k /\ wire (c_sent s') = wire (c_sent s) ++ q.
  Proof.
    intros K Hne. cbn zeta. unfold client_write. rewrite ocrun_do.
    assert (D : exists s1, ocrun (if co_wto o then cdo CDeadline else CRet true) s k = (Some true, (s1, k)) /\
              c_in s1 = c_in s /\ c_buf s1 = c_buf s /\ c_sent s1 = c_sent s).
    { destruct (co_wto o).
      - exists (c_tick s). cbn. rewrite (proj2 WC). auto.
      - exists s. auto. }
    destruct D as (s1 & -> & D1 & D2 & D3). cbn [negb]. rewrite K.
    cbn [cbind cdo ODuo.ocrun ocexec cexec fst snd]. apply N.eqb_neq in Hne. rewrite Hne.
    cbn [cbind cdo ODuo.ocrun ocexec cexec fst snd]. cbn [enc_request].
    set (q := enc_process_req _).
    match goal with |- context [ce_write CE ?i q] => pose proof (proj1 WC i q) as [W1 W2]; destruct (ce_write CE i q) as [n er] end.
    cbn [fst snd] in *. subst er. rewrite N.min_r by exact W1.
    eexists. split; [reflexivity|]. cbn [c_add_sent c_tick c_add_seal c_set_last c_in c_buf c_last c_sent].
    rewrite wire_app, wire_one, takeN_all, D3. auto.
  Qed.
End Client.

Definition odu_at {A} cl cs k sp ss j : odu A := {| x_cl := cl; x_cs := cs; x_k := k; x_sp := sp; x_ss := ss; x_j := j |}.

Section Run.
  Variables (C : Crypto) (CE : cenv) (SE : senv) (o : copts) (chost : bytes) (q0 : nat) (ses : csession) (ca : nat -> N) (ck : nat -> bool).
  Hypothesis L : CryptoLaws C.
  Hypothesis WC : c_works CE.
  Hypothesis WS : writes_all SE.
  Hypothesis Q : forall i, e_quit SE i = false.
  Hypothesis Hh : e_host SE = Some chost.
  Hypothesis Hid : length (cs_id ses) = 16%nat.
  Hypothesis Hca : forall k, ca k <> 0 /\ ca k < 2 ^ 64.
  Notation A := (list rd_result).
  Notation path := (path (odu A) slab (go_oc C CE A ca) (go_os C SE A ck) (olab A)).
  Let key := session_key C chost (cs_id ses).

  Record olinked (cs : cst) (ss : sst) : Prop := {
    ol_buf : c_buf cs = [];
    ol_cin : co_reply o = true -> c_in cs = [];
    ol_sin : s_in ss = [];
    ol_map : s_map ss key = Some q0;
    ol_sec : ses_secret (s_heap ss q0) = cs_secret ses }.

  (** One message. *)
  Lemma oround cs ss p n f (F : cprog A -> cprog A) ps k :
    (forall R (e : ceff R) g, F (CDo e g) = CDo e (fun r => F (g r))) ->
    olinked cs ss -> lenN p + 16 <= 2 ^ 30 -> (forall i, e_handler SE i (co_reply o) p = HOk (f p)) ->
    (co_reply o = true -> f p <> [] /\ lenN (f p) + 16 <= 2 ^ 30 /\ lenN (f p) <= n) ->
    exists m t cs' ss',
      path (odu_at (F (exchange C o ses n (p :: ps))) cs k (conn_body C) ss k) m t
           (odu_at (F (if co_reply o then cbind (exchange C o ses n ps) (fun rs => CRet (outcome1 f p (ck k) :: rs))
                       else exchange C o ses n ps)) cs' (S k) (conn_body C) ss' (S k)) /\
      (m <= 41)%nat /\ Forall (good key q0) t /\ checked t = [ca k] /\
      seen (s_calls ss') = seen (s_calls ss) ++ (if ck k then [(ca k, co_reply o, p)] else []) /\ olinked cs' ss'.
  Proof.
    intros HF [Hbuf Hci Hsi Hmap Hsec] Hp Hf Hr. destruct (Hca k) as [Hc0 Hc]. set (c := ca k) in *.
    destruct (client_gcm_some C L (cs_secret ses)) as (gk & K).
    destruct (owrite C CE ca WC o ses p (c_feed cs [x00]) k gk K Hc0) as (c1 & Ew & Wi & Wb & Wl & Ws). fold c in Ew, Wl, Ws.
    set (ct := gcm_seal C gk (gcm_nonce dir_c2s c) p) in *.
    set (q := enc_request (RqProcess (cs_id ses) c ct (co_reply o))) in *.
    set (Fw := fun X : cprog wr_result => F (cbind X (fun w => match w with
      | WrConn _ false =>
          if co_reply o then
            doc r <- client_read C o ses n;
            doc rs <- exchange C o ses n ps;
            CRet (r :: rs)
          else exchange C o ses n ps
      | _ => CRet []
      end))).
    change (F (exchange C o ses n (p :: ps))) with (Fw (client_write C o ses p)).
    assert (HFw : forall R (e : ceff R) g, Fw (CDo e g) = CDo e (fun r => Fw (g r))) by (intros; unfold Fw; cbn [cbind]; apply HF).
    destruct (path_ocrun C CE SE A ca ck Fw HFw (client_write C o ses p) 5 (write_deep C o ses p) cs k (conn_body C) ss k x00 _ _ _ Ew)
      as (n1 & out1 & c2 & P1 & E1 & O1 & N1).
    { rewrite Wi. cbn. intros H. apply app_eq_nil in H as [_ H]. discriminate H. }
    assert (out1 = q) as ->.
    { rewrite Ws in O1. apply app_inv_head in O1. symmetry; exact O1. }
    subst c1. cbn [c_feed c_set_in c_buf c_last c_sent] in Wb, Wl, Ws.
    assert (Hci2 : c_in c2 = c_in cs).
    { apply (@feed_last c2 x00). rewrite Wi. reflexivity. }
    (* the server *)
    set (s0 := s_feed (s_feed ss q) [x00]).
    assert (Hin0 : s_in s0 = q ++ [x00]) by (unfold s0; cbn; rewrite Hsi; reflexivity).
    assert (Hok : request_ok (RqProcess (cs_id ses) c ct (co_reply o))).
    { split; [exact Hid|]. split; [exact Hc|]. unfold ct. rewrite (gcm_seal_len _ L). exact Hp. }
    destruct (obody C SE ck Q s0 k (cs_id ses) c ct (co_reply o) [x00] Hok Hin0) as (R1 & t1 & T1 & Q1).
    destruct (oprocess C SE ck chost q0 (cs_secret ses) WS Hh (set_in (tick s0) [x00]) k (cs_id ses) c ct (co_reply o) gk p (f p)
      Hmap Hsec (eq_trans (eq_sym (client_server_gcm C _)) K) (gcm_open_seal _ L _ _ _) Hf)
      as (s1 & out2 & R2 & Pin & Pmap & Pheap & Pw & Pr & G2 & K2).
    destruct (quiet_good key q0 _ Q1) as [G1 K1].
    rewrite R2 in R1.
    destruct (path_osrun C CE SE A ca ck (conn_body C) 20 (body_deep C) (Fw (CRet (WrConn (lenN q) false))) c2 (S k) (s_feed ss q) x00 k _ _ _ R1
      ltac:(rewrite Pin; discriminate)) as (n2 & out & s2 & P2 & E2 & O2 & N2).
    assert (out = out2) as ->.
    { rewrite Pw in O2. apply app_inv_head in O2. symmetry; exact O2. }
    fold s0 in P2. rewrite T1 in P2.
    set (t2 := t1 ++ _) in P2.
    assert (G12 : Forall (good key q0) t2 /\ checked t2 = [c]).
    { unfold t2. split; [apply Forall_app; split; assumption|]. rewrite checked_app, K1, K2. reflexivity. }
    clearbody t2. destruct G12 as [G12 K12].
    assert (Hsi2 : s_in s2 = []).
    { apply (@sfeed_last s2 x00 []). rewrite <- E2. exact Pin. }
    assert (Step : go_os C SE A ck (odu_at (Fw (CRet (WrConn (lenN q) false))) (c_feed c2 out2) (S k) (SRet true) s2 (S k)) =
      Some (odu_at (Fw (CRet (WrConn (lenN q) false))) (c_feed c2 out2) (S k) (conn_body C) s2 (S k))) by reflexivity.
    pose proof (path_app _ _ _ _ _ _ _ _ _ _ _ _ P1 (path_app _ _ _ _ _ _ _ _ _ _ _ _ P2 (path_r _ _ _ _ _ _ _ _ _ _ Step (path_nil _ _ _ _ _ _)))) as P12.
    assert (G12' : Forall (good key q0) ([] ++ t2 ++ [LQuiet])) by (cbn [app]; apply Forall_app; split; [exact G12|repeat constructor]).
    assert (K12' : checked ([] ++ t2 ++ [LQuiet]) = [c]) by (cbn [app]; rewrite checked_app, K12; reflexivity).
    assert (Seen : seen (s_calls s2) = seen (s_calls ss) ++ (if ck k then [(c, co_reply o, p)] else [])).
    { subst s1. change (s_calls (s_feed s2 [x00])) with (s_calls s2) in Pr. 
      change (s_calls (set_in (tick s0) [x00])) with (s_calls ss) in Pr.
      destruct (ck k); destruct Pr as [-> _]; [unfold seen; rewrite map_app; reflexivity|rewrite app_nil_r; reflexivity]. }
    assert (Map2 : s_map s2 key = Some q0) by (subst s1; rewrite <- Hmap; change (s_map s2) with (s_map (s_feed s2 [x00])); rewrite Pmap; reflexivity).
    assert (Sec2 : ses_secret (s_heap s2 q0) = cs_secret ses) by (subst s1; rewrite <- Hsec; change (s_heap s2) with (s_heap (s_feed s2 [x00])); rewrite Pheap; reflexivity).
    change (Fw (CRet (WrConn (lenN q) false))) with (F (if co_reply o then
            doc r <- client_read C o ses n;
            doc rs <- exchange C o ses n ps;
            CRet (r :: rs)
          else exchange C o ses n ps)) in P12.
    destruct (co_reply o) eqn:Ho.
    - destruct (Hr eq_refl) as (Hne & Hlo & Hln). specialize (Hci eq_refl). rewrite Hci in Hci2.
      assert (RR : exists c3, crun C CE (client_read C o ses n) (c_feed (c_feed c2 out2) [x00]) = (Some (outcome1 f p (ck k)), c3) /\
                c_in c3 = [x00] /\ c_buf c3 = [] /\ c_sent c3 = c_sent c2).
      { destruct (ck k); destruct Pr as [_ ->].
        - set (rc := gcm_seal C gk (gcm_nonce dir_s2c c) (f p)).
          destruct (read_fresh_run C CE o ses n (c_feed (c_feed c2 (enc_response (RsProcess c rc))) [x00]) (enc_response (RsProcess c rc)) [x00] c rc gk WC)
            as (r & c3 & Rr & Ri & (Rw1 & _) & Rb).
          + cbn. rewrite Wb. exact Hbuf.
          + cbn -[enc_response]. rewrite Hci2. reflexivity.
          + exists x80. split; [reflexivity|]. split; [cbn; lia|]. split; [exact Hc|]. unfold rc. rewrite (gcm_seal_len _ L). exact Hlo.
          + exact K.
          + exists c3. change (c_last (c_feed (c_feed c2 (enc_response (RsProcess c rc))) [x00])) with (c_last c2) in Rb.
            rewrite Wl, N.eqb_refl in Rb. unfold rc in Rb. rewrite (gcm_open_seal _ L) in Rb.
            assert (r = RdOk (f p) true /\ c_buf c3 = []) as [-> Hb3].
            { destruct (f p) as [|y z]; [congruence|]. destruct Rb as [-> ->]. apply N.leb_le in Hln. unfold takeN, dropN. rewrite Hln. auto. }
            split; [exact Rr|]. split; [exact Ri|]. split; [exact Hb3|exact Rw1].
        - destruct (any_error_run_last C CE o ses n (c_feed (c_feed c2 (enc_response (RsError 5 msg_replay))) [x00]) 5 msg_replay [x00] WC)
            as (c3 & Rr & Ri & Rb & _ & Rs & _).
          + cbn. rewrite Wb. exact Hbuf.
          + split; reflexivity.
          + cbn -[enc_response]. rewrite Hci2. reflexivity.
          + exists c3. split; [exact Rr|]. split; [exact Ri|]. split; [exact Rb|exact Rs]. }
      destruct RR as (c3 & Rr & Ri & Rb & Rs).
      set (Fr := fun X : cprog rd_result => F (cbind X (fun r => doc rs <- exchange C o ses n ps; CRet (r :: rs)))).
      assert (HFr : forall R (e : ceff R) g, Fr (CDo e g) = CDo e (fun r => Fr (g r))) by (intros; unfold Fr; cbn [cbind]; apply HF).
      pose proof (ocrun_noadd C CE ca _ (read_noadd C o ses n) (c_feed (c_feed c2 out2) [x00]) (S k)) as Ro. rewrite Rr in Ro. cbn [fst snd] in Ro.
      destruct (path_ocrun C CE SE A ca ck Fr HFr (client_read C o ses n) 15 (read_deep C o ses n) (c_feed c2 out2) (S k) (conn_body C) s2 (S k) x00 _ _ _ Ro)
        as (n3 & out3 & c4 & P3 & E3 & O3 & N3).
      { rewrite Ri. discriminate. }
      assert (out3 = []) as ->.
      { rewrite Rs in O3. change (c_sent (c_feed c2 out2)) with (c_sent c2) in O3. rewrite <- (app_nil_r (wire (c_sent c2))) in O3 at 1.
        apply app_inv_head in O3. symmetry; exact O3. }
      rewrite s_feed_nil in P3.
      pose proof (path_app _ _ _ _ _ _ _ _ _ _ _ _ P12 P3) as P. rewrite app_nil_r in P.
      do 4 eexists. split; [exact P|]. split; [lia|]. split; [exact G12'|]. split; [exact K12'|]. split; [exact Seen|].
      subst c3. constructor; auto. intros _. apply (@feed_last c4 x00 []). exact Ri.
    - do 4 eexists. split; [exact P12|]. split; [lia|]. split; [exact G12'|]. split; [exact K12'|]. split; [exact Seen|].
      constructor; auto; [|intros; congruence]. change (c_buf (c_feed c2 out2)) with (c_buf c2). rewrite Wb. exact Hbuf.
  Qed.

  (** The answers to the checks [k], [k+1], ... of as many messages. *)
  Definition oks (k : nat) (ps : list bytes) : list bool := map ck (seq k (length ps)).
  Definition ocalls (k : nat) (ps : list bytes) : list (N * bool * bytes) :=
    map (fun x => (ca (fst x), co_reply o, snd x)) (marked (combine (seq k (length ps)) ps) (oks k ps)).

  Lemma oexchange n f : forall ps cs ss (F : cprog A -> cprog A) k,
    (forall R (e : ceff R) g, F (CDo e g) = CDo e (fun r => F (g r))) ->
    olinked cs ss -> Forall (fun p => lenN p + 16 <= 2 ^ 30) ps ->
    (forall i p, In p ps -> e_handler SE i (co_reply o) p = HOk (f p)) ->
    (co_reply o = true -> Forall (fun p => f p <> [] /\ lenN (f p) + 16 <= 2 ^ 30 /\ lenN (f p) <= n) ps) ->
    exists m t cs' ss',
      path (odu_at (F (exchange C o ses n ps)) cs k (conn_body C) ss k) m t
           (odu_at (F (CRet (team_result o f ps (oks k ps)))) cs' (k + length ps)%nat (conn_body C) ss' (k + length ps)%nat) /\
      (m <= 41 * length ps)%nat /\ Forall (good key q0) t /\ checked t = map ca (seq k (length ps)) /\
      seen (s_calls ss') = seen (s_calls ss) ++ ocalls k ps /\ s_in ss' = [].
  Proof.
    induction ps as [|p ps IH]; intros cs ss F k HF Hl Hp Hf Hr.
    - exists 0%nat, [], cs, ss. cbn [length]. rewrite Nat.add_0_r. split; [|split; [lia|split; [constructor|split; [reflexivity|split; [cbn; rewrite app_nil_r; reflexivity|apply (ol_sin _ _ Hl)]]]]].
      unfold team_result. cbn. destruct (co_reply o); apply path_nil.
    - inversion Hp as [|? ? Hp1 Hp2]; subst.
      assert (Hr1 : co_reply o = true -> f p <> [] /\ lenN (f p) + 16 <= 2 ^ 30 /\ lenN (f p) <= n).
      { intros H. specialize (Hr H). inversion Hr; assumption. }
      assert (Hr2 : co_reply o = true -> Forall (fun p => f p <> [] /\ lenN (f p) + 16 <= 2 ^ 30 /\ lenN (f p) <= n) ps).
      { intros H. specialize (Hr H). inversion Hr; assumption. }
      destruct (oround cs ss p n f F ps k HF Hl Hp1 (fun i => Hf i p (or_introl eq_refl)) Hr1)
        as (m & t & c1 & s1 & P1 & M1 & G1 & K1 & S1 & L1).
      set (F2 := fun X => F (if co_reply o then cbind X (fun rs => CRet (outcome1 f p (ck k) :: rs)) else X)).
      assert (HF2 : forall R (e : ceff R) g, F2 (CDo e g) = CDo e (fun r => F2 (g r))).
      { intros. unfold F2. destruct (co_reply o); cbn [cbind]; apply HF. }
      destruct (IH c1 s1 F2 (S k) HF2 L1 Hp2 (fun i p' Hi => Hf i p' (or_intror Hi)) Hr2)
        as (m' & t' & c2 & s2 & P2 & M2 & G2 & K2 & S2 & I2).
      exists (m + m')%nat, (t ++ t'), c2, s2. cbn [length]. rewrite <- plus_n_Sm. change (S (k + length ps)) with (S k + length ps)%nat. split.
      + eapply path_app; [exact P1|]. unfold F2 in P2.
        assert (E : (if co_reply o then cbind (CRet (team_result o f ps (oks (S k) ps))) (fun rs => CRet (outcome1 f p (ck k) :: rs)) else CRet (team_result o f ps (oks (S k) ps)))
                    = CRet (team_result o f (p :: ps) (oks k (p :: ps)))).
        { unfold team_result. destruct (co_reply o); reflexivity. }
        rewrite E in P2. exact P2.
      + split; [lia|]. split; [apply Forall_app; auto|]. split; [rewrite checked_app, K1, K2; reflexivity|]. split; [|exact I2].
        rewrite S2, S1, <- app_assoc. f_equal. unfold ocalls, oks. cbn [length seq map combine marked]. destruct (ck k); reflexivity.
  Qed.

  (** ... to the end. *)
  Lemma otalk n f ps cs ss : olinked cs ss -> Forall (fun p => lenN p + 16 <= 2 ^ 30) ps ->
    (forall i p, In p ps -> e_handler SE i (co_reply o) p = HOk (f p)) ->
    (co_reply o = true -> Forall (fun p => f p <> [] /\ lenN (f p) + 16 <= 2 ^ 30 /\ lenN (f p) <= n) ps) ->
    exists m t z,
      path (odu_at (exchange C o ses n ps) cs 0 (conn_body C) ss 0) m t z /\
      ends _ (go_oc C CE A ca) (go_os C SE A ck) z /\ (m <= 41 * length ps + 1)%nat /\
      Forall (good key q0) t /\ checked t = map ca (seq 0 (length ps)) /\
      x_cl z = CRet (team_result o f ps (oks 0 ps)) /\ x_k z = length ps /\ x_j z = length ps /\
      seen (s_calls (x_ss z)) = seen (s_calls ss) ++ ocalls 0 ps.
  Proof.
    intros Hl Hp Hf Hr.
    destruct (oexchange n f ps cs ss (fun X => X) 0%nat ltac:(reflexivity) Hl Hp Hf Hr) as (m & t & c1 & s1 & P & M & G & K & S & I).
    set (z1 := odu_at _ c1 _ _ s1 _) in P.
    set (z2 := odu_at (CRet (team_result o f ps (oks 0 ps))) c1 (0 + length ps)%nat (one_request C) (tick s1) (0 + length ps)%nat).
    assert (S12 : go_os C SE A ck z1 = Some z2).
    { unfold go_os, z1, odu_at, conn_body, sdo. cbn [x_cl x_cs x_k x_sp x_ss x_j sbind s_ready osexec sexec s_out fst snd]. rewrite Q, c_feed_nil. reflexivity. }
    exists (m + 1)%nat, (t ++ [olab A z1]), z2. split.
    { eapply path_app; [exact P|]. eapply path_r; [exact S12|]. apply path_nil. }
    split.
    { split; [reflexivity|]. unfold go_os, z2, odu_at. cbn [x_cl x_cs x_k x_sp x_ss x_j].
      unfold one_request, parse_req_common. cbn. rewrite I. reflexivity. }
    split; [lia|]. split; [apply Forall_app; split; [exact G|repeat constructor]|].
    split; [rewrite checked_app, K; cbn; apply app_nil_r|]. repeat split. exact S.
  Qed.
End Run.
