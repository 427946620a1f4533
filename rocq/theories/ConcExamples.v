(** Concrete executions of the concurrent server, for examples: an instance is
    run to its end on given input with a friendly environment. *)
From Verif Require Import Bytes BytesProofs Parser ParserProofs Crypto Wire WireSeq Toy Replay Server ServerSeq
  ServerExamples Conc.

Definition pick (C : Crypto) (host : option bytes) (inp : bytes) (g : gst) {R} (e : seff R) : R * gst * bytes :=
  match e in seff R return R * gst * bytes with
  | SRead n => let '(r, i) := fl_read n inp EndEOF in (r, g, i)
  | SCopy n => let '(r, i) := fl_copy n inp EndEOF in (r, g, i)
  | SAlloc _ => (tt, g, inp)
  | SWrite b => ((lenN b, None), g, inp)
  | SHost => (host, g, inp)
  | SGenKey => (Some ex_ssk, g, inp)
  | SNewSession sec => (g_next g,
      g_set_next (g_set_session g (g_next g) {| ses_secret := sec; ses_win := new_window |}) (S (g_next g)), inp)
  | SStore k p => (true, g_add_stored g k p, inp)
  | SLoad k => (option_map snd (find (fun x => bytes_eqb (fst x) k) (g_stored g)), g, inp)
  | SSecret p => (ses_secret (g_heap g p), g, inp)
  | SCheck p c => (fst (check_and_update (ses_win (g_heap g p)) c),
      g_set_session g p {| ses_secret := ses_secret (g_heap g p);
                           ses_win := snd (check_and_update (ses_win (g_heap g p)) c) |}, inp)
  | SHandler _ _ _ m => (HOk (m ++ [x21]), g, inp)
  | SSeal _ _ key nonce pt => (gcm_seal C key nonce pt, g, inp)
  | SSign _ _ => (KOk [x99], g, inp)
  | SFetchKey => (KErr, g, inp)
  | SQuit => (false, g, inp)
  end.

Fixpoint drive (C : Crypto) (i : nat) (host : option bytes) (p : sprog bool) (inp : bytes) (g : gst) : gst :=
  match p with
  | SDo e k => let '(r, g', inp') := pick C host inp g e in
      drive C i host (k r) inp' (g_log (g_set_inst g' i {| i_host := host; i_prog := k r |}) i (ev_of e r))
  | _ => g
  end.

Lemma pick_ok C host inp g R (e : seff R) : let '(r, g', _) := pick C host inp g e in ans C host g e r g'.
Proof.
  destruct e; cbn [pick ans]; auto.
  - unfold fl_read. destruct (N.leb_spec n (lenN inp)) as [E|E]; cbn; auto.
    split; [reflexivity|]. rewrite takeN_len. lia.
  - unfold fl_copy. destruct (N.leb_spec n (lenN inp)) as [E|E]; cbn; (split; [reflexivity|]); [rewrite takeN_len|]; lia.
  - split; [reflexivity|]. destruct (find _ _) as [[k p]|] eqn:E; cbn; [|exact I].
    apply find_some in E as [E1 E2]. cbn in E2. destruct (bytes_eqb_spec k key); [subst; exact E1|discriminate].
Qed.

Lemma drive_reach C i host p : forall inp g, reachable C g -> g_inst g i = Some {| i_host := host; i_prog := p |} ->
  reachable C (drive C i host p inp g).
Proof.
  induction p as [a| |R e k IH]; intros inp g H Hi; cbn [drive]; auto.
  pose proof (pick_ok C host inp g R e) as P. destruct (pick C host inp g e) as [[r g'] inp'].
  apply IH.
  - eapply RStep; [exact H|]. eapply (CStep C g i {| i_host := host; i_prog := SDo e k |}); eauto.
  - cbn. rewrite Nat.eqb_refl. reflexivity.
Qed.

(** Start instance [i] on [rq] and run it. *)
Definition request_step (C : Crypto) (host : bytes) (g : gst) (i : nat) (rq : bytes) : gst :=
  drive C i (Some host) (conn_body C) rq
    (g_set_inst g i {| i_host := Some host; i_prog := conn_body C |}).
Lemma request_step_reach C host g i rq : reachable C g -> g_inst g i = None -> reachable C (request_step C host g i rq).
Proof.
  intros H Hi. apply drive_reach.
  - eapply RStep; [exact H|]. apply CSpawn; auto.
  - cbn. rewrite Nat.eqb_refl. reflexivity.
Qed.

(** A Setup, a Process, its replay, another Process. *)
Definition ex_g : gst :=
  request_step toy ex_host
    (request_step toy ex_host
      (request_step toy ex_host
        (request_step toy ex_host g0 0 (enc_request ex_setup))
        1 (enc_request (ex_process 5 [x41] true)))
      2 (enc_request (ex_process 5 [x41] true)))
    3 (enc_request (ex_process 6 [x42; x43] true)).
Lemma ex_g_reach : reachable toy ex_g.
Proof.
  unfold ex_g. repeat (apply request_step_reach; [|vm_compute; reflexivity]). constructor.
Qed.
