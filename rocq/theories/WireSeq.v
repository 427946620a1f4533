(** Sequences of messages on a stream. *)
From Verif Require Import Bytes BytesProofs Parser ParserProofs Crypto Wire WireProofs.

(** A request as a client emits it. *)
Inductive request :=
| RqHello
| RqFetchKey
| RqSetup (id pub : bytes)
| RqProcess (id : bytes) (ctr : N) (msg : bytes) (reply : bool).

Definition enc_request (r : request) : bytes :=
  match r with
  | RqHello => enc_req_common hello_request
  | RqFetchKey => enc_req_common fetch_key_request
  | RqSetup id pub => enc_setup_req (new_setup_request id pub)
  | RqProcess id ctr msg reply => enc_process_req (new_process_request id ctr msg reply)
  end.

Definition request_ok (r : request) : Prop :=
  match r with
  | RqHello | RqFetchKey => True
  | RqSetup id pub => length id = 16%nat /\ length pub = 32%nat
  | RqProcess id ctr msg _ => length id = 16%nat /\ ctr < two64 /\ lenN msg <= max_message_size
  end.

(** A response to one kind of request. *)
Inductive response :=
| RsHello
| RsError (code : N) (msg : bytes)
| RsSetup (pub : bytes) (h : N) (sig : bytes)
| RsProcess (ctr : N) (msg : bytes)
| RsFetchKey (alg : N) (key : bytes).

Definition enc_response (r : response) : bytes :=
  match r with
  | RsHello => enc_resp_common hello_response
  | RsError c m => enc_error_resp (new_error_response c m)
  | RsSetup p h s => enc_setup_resp (new_setup_response p h s)
  | RsProcess c m => enc_process_resp (new_process_response c m)
  | RsFetchKey a k => enc_fetch_resp (new_fetch_response a k)
  end.

Definition response_ok (r : response) : Prop :=
  match r with
  | RsHello => True
  | RsError c m => c < two32 /\ lenN m < two63
  | RsSetup p h s => length p = 32%nat /\ h < 256 /\ s <> [] /\ lenN s <= max_signature_size
  | RsProcess c m => c < two64 /\ lenN m <= max_message_size
  | RsFetchKey a k => a < 256 /\ lenN k <= max_key_size
  end.

(** [answers q r]: [r] is a possible response to a request of kind [q]. *)
Definition answers (q : N) (r : response) : Prop :=
  match r with
  | RsError _ _ => True
  | RsHello => q = action_hello
  | RsSetup _ _ _ => q = action_setup
  | RsProcess _ _ => q = action_process
  | RsFetchKey _ _ => q = action_fetch_key
  end.

(** Reference readers, used only in proofs. *)
Definition read_request (C : Crypto) : parser request :=
  dop rc <- parse_req_common;
  if rq_action rc =? action_hello then PRet RqHello
  else if rq_action rc =? action_setup then
    dop m <- parse_setup_req C rc; PRet (RqSetup (sr_id m) (sr_pub m))
  else if rq_action rc =? action_process then
    dop m <- parse_process_req rc;
    PRet (RqProcess (pr_id m) (pr_counter m) (pr_msg m) (pr_reply m))
  else PRet RqFetchKey.

Definition read_response (C : Crypto) (q : N) : parser response :=
  dop rc <- parse_resp_common;
  if negb (rs_success rc) then
    dop m <- parse_error_resp rc; PRet (RsError (er_code m) (er_msg m))
  else if q =? action_hello then PRet RsHello
  else if q =? action_setup then
    dop m <- parse_setup_resp C rc; PRet (RsSetup (ss_pub m) (ss_hash m) (ss_sig m))
  else if q =? action_process then
    dop m <- parse_process_resp rc; PRet (RsProcess (ps_counter m) (ps_msg m))
  else dop m <- parse_fetch_resp rc; PRet (RsFetchKey (fk_alg m) (fk_key m)).

Lemma read_request_rt C r s e : request_ok r ->
  run (read_request C) (enc_request r ++ s) e = (inr r, s).
Proof.
  intros H. unfold read_request. destruct r as [| |id pub|id ctr msg reply]; cbn [enc_request request_ok] in *.
  - rewrite run_bind, req_common_rt by (split; reflexivity). reflexivity.
  - rewrite run_bind, req_common_rt by (split; reflexivity). reflexivity.
  - destruct H as [Hid Hp]. unfold enc_setup_req.
    rewrite run_bind, <- app_assoc, req_common_rt by (split; reflexivity).
    cbn [new_setup_request sr_common rq_action]. change (action_setup =? action_hello) with false.
    change (action_setup =? action_setup) with true. cbn iota. rewrite run_bind, <- !app_assoc.
    assert (Hok : setup_req_ok (new_setup_request id pub)).
    { constructor; auto. split; reflexivity. }
    pose proof (setup_req_rt_body C (new_setup_request id pub) s e Hok) as E.
    cbn [new_setup_request sr_common sr_id sr_pub] in *. rewrite E. reflexivity.
  - destruct H as (Hid & Hc & Hm). unfold enc_process_req.
    rewrite run_bind, <- app_assoc, req_common_rt by (split; reflexivity).
    cbn [new_process_request pr_common rq_action]. change (action_process =? action_hello) with false.
    change (action_process =? action_setup) with false.
    change (action_process =? action_process) with true. cbn iota. rewrite run_bind, <- !app_assoc.
    assert (Hok : process_req_ok (new_process_request id ctr msg reply)).
    { constructor; auto; try reflexivity. split; reflexivity. }
    pose proof (process_req_rt_body (new_process_request id ctr msg reply) s e Hok) as E.
    unfold process_flags in E.
    cbn [new_process_request pr_common pr_reply pr_reserved pr_id pr_counter pr_size pr_msg] in *.
    cbn [app]. rewrite E. reflexivity.
Qed.

Lemma read_response_rt C q r s e : response_ok r -> answers q r ->
  run (read_response C q) (enc_response r ++ s) e = (inr r, s).
Proof.
  intros H Hq. unfold read_response.
  destruct r as [|c m|p h g|c m|a k]; cbn [enc_response response_ok answers] in *.
  - rewrite run_bind, resp_common_rt by reflexivity. subst q. reflexivity.
  - destruct H as [Hc Hm]. unfold enc_error_resp.
    rewrite run_bind, <- app_assoc, resp_common_rt by reflexivity.
    cbn [new_error_response er_common rs_success negb]. rewrite run_bind, <- !app_assoc.
    assert (Hok : error_resp_ok (new_error_response c m)) by (constructor; auto; reflexivity).
    pose proof (error_resp_rt_body (new_error_response c m) s e Hok) as E.
    cbn [new_error_response er_common er_code er_msg] in *. rewrite E. reflexivity.
  - destruct H as (Hp & Hh & Hne & Hg). subst q. unfold enc_setup_resp.
    rewrite run_bind, <- app_assoc, resp_common_rt by reflexivity.
    cbn [new_setup_response ss_common rs_success negb].
    change (action_setup =? action_hello) with false.
    change (action_setup =? action_setup) with true. cbn iota. rewrite run_bind, <- !app_assoc.
    assert (Hok : setup_resp_ok (new_setup_response p h g)) by (constructor; auto; reflexivity).
    pose proof (setup_resp_rt_body C (new_setup_response p h g) s e Hok Hne) as E.
    cbn [new_setup_response ss_common ss_pub ss_hash ss_sig] in *. rewrite E. reflexivity.
  - destruct H as (Hc & Hm). subst q. unfold enc_process_resp.
    rewrite run_bind, <- app_assoc, resp_common_rt by reflexivity.
    cbn [new_process_response ps_common rs_success negb].
    change (action_process =? action_hello) with false.
    change (action_process =? action_setup) with false.
    change (action_process =? action_process) with true. cbn iota. rewrite run_bind, <- !app_assoc.
    assert (Hok : process_resp_ok (new_process_response c m)) by (constructor; auto; reflexivity).
    pose proof (process_resp_rt_body (new_process_response c m) s e Hok) as E.
    cbn [new_process_response ps_common ps_counter ps_size ps_msg] in *. rewrite E. reflexivity.
  - destruct H as (Ha & Hk). subst q.
    assert (Hok : fetch_resp_ok (new_fetch_response a k)) by (constructor; auto; reflexivity).
    pose proof (fetch_resp_rt (new_fetch_response a k) s e Hok) as E.
    unfold parse_full_fetch_resp in E. rewrite run_bind in E.
    rewrite run_bind. unfold enc_fetch_resp in *. rewrite <- app_assoc, resp_common_rt in * by reflexivity.
    cbn [new_fetch_response fk_common rs_success negb] in *.
    change (action_fetch_key =? action_hello) with false.
    change (action_fetch_key =? action_setup) with false.
    change (action_fetch_key =? action_process) with false. cbn iota.
    rewrite run_bind, E. reflexivity.
Qed.

Lemma enc_request_ne r : enc_request r <> [].
Proof. destruct r; discriminate. Qed.
Lemma enc_response_ne r : enc_response r <> [].
Proof. destruct r; discriminate. Qed.

Lemma requests_unique l1 l2 t :
  Forall request_ok l1 -> Forall request_ok l2 ->
  concat (map enc_request l1) = concat (map enc_request l2) ++ t ->
  exists l3, l1 = l2 ++ l3 /\ concat (map enc_request l3) = t.
Proof.
  apply (seq_unique (read_request (Build_Crypto (fun _ => []) (fun _ _ => None) (fun _ => None) (fun _ => None)
    (fun _ => []) (fun _ => []) (fun _ => []) (fun _ _ => []) (fun _ _ _ => []) (fun _ _ _ => None)
    (fun _ => (0,0)) (fun _ => (P256,0,0)) (fun _ => []) (fun _ _ _ => None) (fun _ _ _ => None)
    (fun _ _ => []) (fun _ _ _ _ => true) (fun _ _ _ => true) (fun _ _ _ => true)))).
  - intros; apply read_request_rt; assumption.
  - intros; apply enc_request_ne.
Qed.

Lemma responses_unique q l1 l2 t :
  Forall (fun r => response_ok r /\ answers q r) l1 ->
  Forall (fun r => response_ok r /\ answers q r) l2 ->
  concat (map enc_response l1) = concat (map enc_response l2) ++ t ->
  exists l3, l1 = l2 ++ l3 /\ concat (map enc_response l3) = t.
Proof.
  apply (seq_unique (read_response (Build_Crypto (fun _ => []) (fun _ _ => None) (fun _ => None) (fun _ => None)
    (fun _ => []) (fun _ => []) (fun _ => []) (fun _ _ => []) (fun _ _ _ => []) (fun _ _ _ => None)
    (fun _ => (0,0)) (fun _ => (P256,0,0)) (fun _ => []) (fun _ _ _ => None) (fun _ _ _ => None)
    (fun _ _ => []) (fun _ _ _ _ => true) (fun _ _ _ => true) (fun _ _ _ => true)) q)).
  - intros m s e [H1 H2]; apply read_response_rt; assumption.
  - intros; apply enc_response_ne.
Qed.

(** The responses on a connection answer different requests; the i-th answers
    the i-th of [qs]. *)
Lemma responses_unique_mixed qs l1 l2 t :
  Forall2 (fun q r => response_ok r /\ answers q r) (firstn (length l1) qs) l1 ->
  Forall2 (fun q r => response_ok r /\ answers q r) (firstn (length l2) qs) l2 ->
  concat (map enc_response l1) = concat (map enc_response l2) ++ t ->
  exists l3, l1 = l2 ++ l3 /\ concat (map enc_response l3) = t.
Proof.
  revert qs l1. induction l2 as [|r2 l2 IH]; intros qs l1 H1 H2 E; [exists l1; auto|].
  destruct qs as [|q qs]; [inversion H2|]. cbn [length firstn] in H2. inversion H2 as [|? ? ? ? [A1 A2] H2']; subst.
  destruct l1 as [|r1 l1].
  { cbn [map concat app] in E. symmetry in E. apply app_eq_nil in E as [E _]. apply app_eq_nil in E as [E _]. exfalso. exact (enc_response_ne _ E). }
  cbn [length firstn] in H1. inversion H1 as [|? ? ? ? [B1 B2] H1']; subst.
  cbn [map concat] in E. rewrite <- app_assoc in E.
  set (C := Build_Crypto (fun _ => []) (fun _ _ => None) (fun _ => None) (fun _ => None)
    (fun _ => []) (fun _ => []) (fun _ => []) (fun _ _ => []) (fun _ _ _ => []) (fun _ _ _ => None)
    (fun _ => (0,0)) (fun _ => (P256,0,0)) (fun _ => []) (fun _ _ _ => None) (fun _ _ _ => None)
    (fun _ _ => []) (fun _ _ _ _ => true) (fun _ _ _ => true) (fun _ _ _ => true)).
  pose proof (read_response_rt C q r1 (concat (map enc_response l1)) EndEOF B1 B2) as X1.
  pose proof (read_response_rt C q r2 (concat (map enc_response l2) ++ t) EndEOF A1 A2) as X2.
  rewrite E, X2 in X1. injection X1 as -> X1.
  destruct (IH qs l1 H1' H2' (eq_sym X1)) as (l3 & -> & <-). exists l3. auto.
Qed.

Lemma requests_inj l1 l2 :
  Forall request_ok l1 -> Forall request_ok l2 ->
  concat (map enc_request l1) = concat (map enc_request l2) -> l1 = l2.
Proof.
  intros H1 H2 E. rewrite <- (app_nil_r (concat (map enc_request l2))) in E.
  destruct (requests_unique _ _ _ H1 H2 E) as ([|r l3] & -> & E3); [apply app_nil_r|].
  cbn [map concat] in E3. apply app_eq_nil in E3 as [E3 _]. exfalso; exact (enc_request_ne _ E3).
Qed.
Lemma responses_inj q l1 l2 :
  Forall (fun r => response_ok r /\ answers q r) l1 ->
  Forall (fun r => response_ok r /\ answers q r) l2 ->
  concat (map enc_response l1) = concat (map enc_response l2) -> l1 = l2.
Proof.
  intros H1 H2 E. rewrite <- (app_nil_r (concat (map enc_response l2))) in E.
  destruct (responses_unique q _ _ _ H1 H2 E) as ([|r l3] & -> & E3); [apply app_nil_r|].
  cbn [map concat] in E3. apply app_eq_nil in E3 as [E3 _]. exfalso; exact (enc_response_ne _ E3).
Qed.
