(** Clients and a server together: both Writes of [ex_k1] reach the server, client
    0 reads the reply to its own. *)
From Verif Require Import Bytes BytesProofs Parser Crypto Kdf Wire WireSeq Toy Server ServerSeq SpecServer ServerExamples
  Keys Client ClientSeq SpecClient ClientExamples Conc SpecConc ConcExamples ClientConc SpecClientConc ClientConcExamples SpecChannel.

Definition ex_sent (i : nat) : bytes :=
  concat (map (fun x => match x with (j, KWrite b _) => if Nat.eqb j i then b else [] | _ => [] end) (k_trace ex_k2)).
Definition ex_cg : gst :=
  request_step toy ex_host
    (request_step toy ex_host
      (request_step toy ex_host g0 0 (enc_request (RqSetup (uuid_of ex_rnd) (x_pub toy ex_csk))))
      1 (ex_sent 0))
    2 (ex_sent 1).
Lemma ex_cg_reach : reachable toy ex_cg.
Proof. unfold ex_cg. repeat (apply request_step_reach; [|vm_compute; reflexivity]). constructor. Qed.

(** The calls of the handler and the replies, with their place in the trace. *)
Fixpoint number {A} (n : nat) (l : list A) : list (nat * A) :=
  match l with [] => [] | x :: l' => (n, x) :: number (S n) l' end.
Definition handler_calls (l : list (nat * ev)) : list (nat * (nat * nat * N * bytes)) :=
  flat_map (fun x => match x with (n, (i, EvHandler p c _ m _)) => [(n, (i, p, c, m))] | _ => [] end) (number 0 l).
Lemma handler_in g i p c reply m r : event g i (EvHandler p c reply m r) ->
  In (i, p, c, m) (map snd (handler_calls (g_trace g))).
Proof.
  unfold event, handler_calls. generalize (g_trace g), 0%nat. induction l as [|[j x] l IH]; intros n [].
  - injection H as -> ->. cbn. left. reflexivity.
  - cbn. rewrite map_app. apply in_or_app. right. apply IH. exact H.
Qed.
Lemma event_forall (f : ev -> bool) g : forallb (fun x => f (snd x)) (g_trace g) = true ->
  forall i x, event g i x -> f x = true.
Proof. intros H i x K. exact (proj1 (forallb_forall _ _) H _ K). Qed.
Lemma ex_new p sec i : event ex_cg i (EvNew p sec) -> p = 0%nat.
Proof.
  intros K. apply (event_forall (fun x => match x with EvNew p _ => Nat.eqb p 0 | _ => true end)) in K.
  - apply Nat.eqb_eq, K.
  - vm_compute. reflexivity.
Qed.
Lemma ex_server_key p key : server_key toy ex_cg p key -> key = ex_ckey.
Proof.
  intros (j & sec & H & K).
  apply (event_forall (fun x => match x with EvNew _ s => bytes_eqb s (cs_secret ex_ses) | _ => true end)) in H;
    [|vm_compute; reflexivity].
  assert (E : sec = cs_secret ex_ses) by (destruct (bytes_eqb_spec sec (cs_secret ex_ses)); [assumption|discriminate]).
  subst sec.
  assert (Z : new_gcm toy (cs_secret ex_ses) = Some ex_ckey) by (vm_compute; reflexivity). congruence.
Qed.
Lemma nth_kevent k n i x : nth_error (k_trace k) n = Some (i, x) -> kevent k i x.
Proof. apply nth_error_In. Qed.
Lemma nth_event g n i x : nth_error (g_trace g) n = Some (i, x) -> event g i x.
Proof. apply nth_error_In. Qed.
Lemma ex_requests_unforged : requests_unforged toy ex_W ex_k2 ex_cg.
Proof.
  intros i p c reply m r key s H K _ _. apply ex_server_key in K. subst key.
  apply handler_in in H.
  assert (E : map snd (handler_calls (g_trace ex_cg)) = [(2%nat, 0%nat, 1, [x42]); (1%nat, 0%nat, 2, [x41])]) by (vm_compute; reflexivity).
  rewrite E in H. clear E.
  assert (K1 : kevent ex_k2 1 (KSeal 0 1 ex_ckey (x00 :: repeat x00 3 ++ be_enc 8 1) [x42]
                 (gcm_seal toy ex_ckey (x00 :: repeat x00 3 ++ be_enc 8 1) [x42])))
    by (apply (nth_kevent _ 13); vm_compute; reflexivity).
  assert (K2 : kevent ex_k2 0 (KSeal 0 2 ex_ckey (x00 :: repeat x00 3 ++ be_enc 8 2) [x41]
                 (gcm_seal toy ex_ckey (x00 :: repeat x00 3 ++ be_enc 8 2) [x41])))
    by (apply (nth_kevent _ 15); vm_compute; reflexivity).
  destruct H as [H|[H|[]]]; injection H as <- <- <- <-.
  - exists 1%nat, 0%nat, 1, [x42]. exact K1.
  - exists 0%nat, 0%nat, 2, [x41]. exact K2.
Qed.
Lemma ex_reader i : option_map (fun v => match o_op v with OpRead _ => true | _ => false end) (k_inst ex_k2 i) = Some true ->
  i = 2%nat.
Proof.
  intros H.
  assert (H0 : option_map (fun v => match o_op v with OpRead _ => true | _ => false end) (k_inst ex_k2 0) = Some false) by (vm_compute; reflexivity).
  assert (H1 : option_map (fun v => match o_op v with OpRead _ => true | _ => false end) (k_inst ex_k2 1) = Some false) by (vm_compute; reflexivity).
  assert (H3 : forall j, k_inst ex_k2 (S (S (S j))) = None) by (intros j; vm_compute; reflexivity).
  destruct i as [|[|[|i]]]; [congruence|congruence|reflexivity|]. rewrite H3 in H. discriminate H.
Qed.
Lemma ex_replies_unforged : replies_unforged toy ex_W ex_k2 ex_cg.
Proof.
  intros cl c ct m key (i & n & key' & (v & Hi & Hcl & Ho) & Hr & _ & Hk & _) Hk'.
  unfold client_key in Hk'. rewrite Hk in Hk'. injection Hk' as <-.
  assert (K : client_gcm toy (cs_secret (w_secret ex_W (w_session ex_W cl))) = Some ex_ckey) by (vm_compute; reflexivity).
  rewrite Hk in K. injection K as ->. clear Hk.
  assert (i = 2%nat) as ->.
  { apply (f_equal (option_map (fun v => match o_op v with OpRead _ => true | _ => false end))) in Hi.
    cbn [option_map] in Hi. rewrite Ho in Hi. exact (ex_reader i Hi). }
  clear Hi Hcl Ho. destruct Hr as (b0 & E & _ & Hc & Hl).
  assert (R : response_of ex_k2 2 = ex_reply2 [x41; x21]) by (vm_compute; reflexivity).
  rewrite R in E. clear R.
  assert (c = 2) as ->.
  { apply (f_equal (fun l => be_dec (firstn 8 (skipn 1 l)))) in E. cbn [skipn] in E.
    rewrite firstn_app, (firstn_all2 (n := 8) (be_enc 8 c)) in E by (rewrite be_enc_length; auto).
    rewrite be_enc_length, Nat.sub_diag in E. cbn [firstn] in E. rewrite app_nil_r, be_dec_enc_small in E by exact Hc.
    rewrite <- E. vm_compute. reflexivity. }
  assert (ct = gcm_seal toy ex_ckey (x01 :: repeat x00 3 ++ be_enc 8 2) [x41; x21]) as ->.
  { apply (f_equal (fun l => skipn 16 (tl l))) in E. cbn [tl] in E. rewrite app_assoc in E.
    rewrite skipn_app, (skipn_all2 (n := 16) (be_enc 8 2 ++ be_enc 8 (lenN ct))) in E by (rewrite app_length, !be_enc_length; auto).
    rewrite app_length, !be_enc_length in E. cbn [Nat.add Nat.sub skipn app] in E.
    rewrite <- E. vm_compute. reflexivity. }
  exists 1%nat, 0%nat, 2, [x41; x21].
  apply (nth_event _ 16). vm_compute. reflexivity.
Qed.
Lemma ex_distinct_server : distinct_server_keys toy ex_cg.
Proof.
  intros p p' key (j & sec & H & _) (j' & sec' & H' & _). apply ex_new in H, H'. congruence.
Qed.
Lemma ex_adds s : adds s (k_trace ex_k2) <= 2 ^ 64.
Proof. destruct s; vm_compute; discriminate. Qed.
Lemma ex_serves : serves toy ex_W ex_k2 ex_cg 17 0 /\ serves toy ex_W ex_k2 ex_cg 2 1.
Proof.
  assert (K : server_key toy ex_cg 0 ex_ckey).
  { exists 0%nat, (cs_secret ex_ses). split; [|vm_compute; reflexivity]. apply (nth_event _ 33). vm_compute. reflexivity. }
  split.
  - exists 1%nat, 0%nat, 2, true, [x41], (HOk [x41; x21]), ex_ckey, 0%nat.
    split; [vm_compute; reflexivity|]. split; [exact K|]. split; [vm_compute; reflexivity|]. split.
    + eexists. split; [vm_compute; reflexivity|split; reflexivity].
    + apply (nth_kevent _ 16). vm_compute. reflexivity.
  - exists 2%nat, 0%nat, 1, true, [x42], (HOk [x42; x21]), ex_ckey, 1%nat.
    split; [vm_compute; reflexivity|]. split; [exact K|]. split; [vm_compute; reflexivity|]. split.
    + eexists. split; [vm_compute; reflexivity|split; reflexivity].
    + apply (nth_kevent _ 18). vm_compute. reflexivity.
Qed.
