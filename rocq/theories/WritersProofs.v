(** Proofs about a client that several goroutines write to. *)
From Coq Require Import Permutation.
From Verif Require Import Bytes BytesProofs Parser ParserProofs Crypto Kdf Wire WireProofs WireSeq WireExtra Replay SpecReplay
  ReplayProofs Server ServerSeq SpecServer ServerProofs ServerProps ServerProps2 ServerProps3 MultiConn SpecMulti Keys KeysProofs
  Client ClientSeq SpecClient ClientProofs ClientProps SpecE2E E2EProofs SpecUdpDup UdpDup UdpSend Duplex SpecDuplex Writers SpecWriters.

Lemma put_split {A} (x y : A) : forall i l, nth_error l i = Some y ->
  exists l1 l2, l = l1 ++ y :: l2 /\ length l1 = i /\ put i x l = l1 ++ x :: l2.
Proof.
  induction i as [|i IH]; intros [|z l] H; try discriminate H; cbn in H.
  - injection H as ->. exists [], l. auto.
  - destruct (IH l H) as (l1 & l2 & -> & <- & E). exists (z :: l1), l2. cbn. rewrite E. auto.
Qed.

Section Writers.
  Variables (C : Crypto) (CE : cenv) (o : copts) (ses : csession) (key : bytes).
  Definition request_for (c : N) (p : bytes) : request :=
    RqProcess (cs_id ses) c (gcm_seal C key (gcm_nonce dir_c2s c) p) (co_reply o).
  Definition octets_for (c : N) (p : bytes) : bytes := enc_request (request_for c p).
  Definition written (p : bytes) : wr_result := WrConn (lenN p + 50) false.

  (** A goroutine that has [k] steps to do, holds the counter [have] and has the
      messages [rest] to send. *)
  Fixpoint wok (k : nat) (pr : cprog (list wr_result)) (have : option N) (rest : list bytes) (res : list wr_result) : Prop :=
    match k with
    | O => pr = CRet res /\ have = None /\ rest = []
    | S k =>
        match pr with
        | CDo e f =>
            (match e in ceff R return (R -> cprog (list wr_result)) -> Prop with
             | CDeadline => fun f => wok k (f true) have rest res
             | CAdd => fun f => have = None /\ rest <> [] /\ forall c, c <> 0 -> wok k (f c) (Some c) rest res
             | CSetLast _ => fun f => wok k (f tt) have rest res
             | CSeal _ key nonce pt => fun f => wok k (f (gcm_seal C key nonce pt)) have rest res
             | CWrite b => fun f => exists c p rest', have = Some c /\ rest = p :: rest' /\ b = octets_for c p /\
                 wok k (f (lenN b, false)) None rest' res
             | _ => fun _ => False
             end) f
        | _ => False
        end
    end.
  Hypothesis L : CryptoLaws C.
  Hypothesis Hid : length (cs_id ses) = 16%nat.
  Hypothesis K : client_gcm C (cs_secret ses) = Some key.

  Lemma octets_len c p : lenN (octets_for c p) = lenN p + 50.
  Proof.
    unfold octets_for, request_for. cbn [enc_request]. unfold enc_process_req, new_process_request, enc_req_common.
    cbn [pr_common pr_reserved pr_reply pr_id pr_counter pr_size pr_msg].
    repeat rewrite ?lenN_app, ?lenN_cons, ?be_enc_lenN, ?(gcm_seal_len _ L).
    assert (lenN (cs_id ses) = 16) by (unfold lenN; rewrite Hid; reflexivity).
    change (lenN (@nil byte)) with 0. lia.
  Qed.

  Lemma wok_bind k (pr : cprog (list wr_result)) (f : list wr_result -> list wr_result) : forall have rest res,
    wok k pr have rest res -> wok k (doc rs <- pr; CRet (f rs)) have rest (f res).
  Proof.
    revert pr. induction k as [|k IH]; intros pr have rest res; cbn [wok].
    - intros (-> & -> & ->). auto.
    - destruct pr as [a| |R e g]; [intros []..|]. cbn [cbind]. destruct e; auto.
      + intros (c & p & rest' & -> & -> & -> & H). exists c, p, rest'. auto.
      + intros (-> & Hr & H). split; [reflexivity|]. split; [exact Hr|]. intros c Hc. apply IH, H, Hc.
  Qed.

  Lemma wok_loop : forall ps, exists k, wok k (write_loop C o ses ps) None ps (map written ps).
  Proof.
    induction ps as [|p ps (k & IH)]; [exists O; cbn; auto|].
    assert (W : wok (4 + k) (doc c <- cdo CAdd;
        (doc r <- (if c =? 0 then CRet WrExhausted
        else
          doc _ <- cdo (CSetLast c);
          doc ct <- cdo (CSeal c key (gcm_nonce dir_c2s c) p);
          doc w <- cdo (CWrite (enc_process_req (new_process_request (cs_id ses) c ct (co_reply o))));
          CRet (WrConn (fst w) (snd w)));
        doc rs <- write_loop C o ses ps; CRet (r :: rs))) None (p :: ps) (map written (p :: ps))).
    { cbn [Nat.add cdo cbind wok]. split; [reflexivity|]. split; [discriminate|]. intros c Hc.
      destruct (N.eqb_spec c 0) as [E|_]; [contradiction|]. cbn [cdo cbind wok].
      exists c, p, ps. split; [reflexivity|]. split; [reflexivity|]. split; [reflexivity|]. cbn [fst snd].
      change (enc_process_req _) with (octets_for c p). rewrite octets_len.
      apply (wok_bind k (write_loop C o ses ps) (cons (written p))). exact IH. }
    cbn [write_loop]. unfold client_write. rewrite K. destruct (co_wto o).
    - exists (5 + k)%nat. exact W.
    - exists (4 + k)%nat. exact W.
  Qed.

  Hypothesis Wk : c_works CE.

  Record ghost := { g_k : nat; g_have : option N; g_rest : list bytes; g_ps : list bytes }.
  Definition gok (pr : cprog (list wr_result)) (g : ghost) : Prop := wok (g_k g) pr (g_have g) (g_rest g) (map written (g_ps g)).
  Definition held (gs : list ghost) : list N := flat_map (fun g => match g_have g with Some c => [c] | None => [] end) gs.
  Definition steps (gs : list ghost) : nat := list_sum (map g_k gs).
  Definition left (gs : list ghost) : N := lenN (flat_map g_rest gs).

  Record winv (s0 : cst) (pss : list (list bytes)) (n : nat) (x : writers) : Prop := {
    wi : exists gs (log : sent_log),
      Forall2 gok (w_progs x) gs /\ map g_ps gs = pss /\ steps gs = n /\
      (forall i g, nth_error gs i = Some g -> written_by i log ++ g_rest g = g_ps g) /\
      (forall i, (length gs <= i)%nat -> written_by i log = []) /\
      NoDup (map log_ctr log ++ held gs) /\
      Forall (fun c => c_ctr s0 < c <= c_ctr (w_cs x)) (map log_ctr log ++ held gs) /\
      c_ctr (w_cs x) = c_ctr s0 + lenN log + lenN (held gs) /\
      lenN log + left gs = total pss /\
      c_sent (w_cs x) = c_sent s0 ++ map (fun e => (octets_for (log_ctr e) (log_msg e), lenN (log_msg e) + 50)) log }.

  Lemma winv_init s pss : exists n, winv s pss n (several C o ses pss s).
  Proof.
    assert (exists gs, Forall2 gok (map (write_loop C o ses) pss) gs /\ map g_ps gs = pss /\ map g_rest gs = pss /\ held gs = []) as (gs & A & B & D & F).
    { induction pss as [|ps pss (gs & A & B & D & F)]; [exists []; cbn; auto|].
      destruct (wok_loop ps) as (k & Hk). exists ({| g_k := k; g_have := None; g_rest := ps; g_ps := ps |} :: gs). cbn.
      rewrite B, D. repeat split; [constructor; assumption|exact F]. }
    exists (steps gs). constructor. exists gs, []. split; [exact A|]. split; [exact B|]. split; [reflexivity|]. repeat split.
    - intros i g Hg. cbn. assert (X : nth_error (map g_ps gs) i = nth_error (map g_rest gs) i) by (rewrite B, D; reflexivity).
      rewrite !nth_error_map, Hg in X. injection X as X. congruence.
    - rewrite F. constructor.
    - rewrite F. constructor.
    - rewrite F. cbn. lia.
    - unfold left, total. rewrite flat_map_concat_map, D. cbn. lia.
    - cbn. rewrite app_nil_r. reflexivity.
  Qed.

  Lemma held_app a b : held (a ++ b) = held a ++ held b.
  Proof. apply flat_map_app. Qed.
  Lemma steps_app a b : steps (a ++ b) = (steps a + steps b)%nat.
  Proof. unfold steps. rewrite map_app. apply list_sum_app. Qed.
  Lemma left_app a b : left (a ++ b) = left a + left b.
  Proof. unfold left. rewrite flat_map_app, lenN_app. reflexivity. Qed.
  Lemma held_cons g b : held (g :: b) = (match g_have g with Some c => [c] | None => [] end) ++ held b.
  Proof. reflexivity. Qed.
  Lemma steps_cons g b : steps (g :: b) = (g_k g + steps b)%nat.
  Proof. reflexivity. Qed.
  Lemma left_cons g b : left (g :: b) = lenN (g_rest g) + left b.
  Proof. unfold left. cbn [flat_map]. rewrite lenN_app. reflexivity. Qed.
  (** Every counter held belongs to a message that is still to be sent. *)
  Lemma wok_have k : forall pr c rest res, wok k pr (Some c) rest res -> rest <> [].
  Proof.
    induction k as [|k IH]; intros pr c rest res; cbn [wok]; [intros (_ & X & _); discriminate X|].
    destruct pr as [a| |R e g]; [intros []..|]. destruct e; try (intros []; fail); eauto.
    - intros (c' & p & rest' & _ & -> & _). discriminate.
    - intros (X & _). discriminate X.
  Qed.
  Lemma held_left prs gs : Forall2 gok prs gs -> lenN (held gs) <= left gs.
  Proof.
    induction 1 as [|pr g prs gs Hg _ IH]; [cbn; lia|]. rewrite held_cons, left_cons, lenN_app.
    unfold gok in Hg. destruct (g_have g); [|cbn; lia]. apply wok_have in Hg. destruct (g_rest g); [congruence|]. rewrite lenN_cons. cbn. lia.
  Qed.

  Lemma split_at {A} (l1 l2 m1 m2 : list A) x y : length l1 = length m1 -> l1 ++ x :: l2 = m1 ++ y :: m2 -> l1 = m1 /\ x = y /\ l2 = m2.
  Proof.
    revert m1. induction l1 as [|a l1 IH]; intros [|b m1] Hl E; try discriminate Hl; cbn in E.
    - injection E as -> ->. auto.
    - injection E as -> E. injection Hl as Hl. destruct (IH m1 Hl E) as (-> & -> & ->). auto.
  Qed.
  Lemma written_app i a b : written_by i (a ++ b) = written_by i a ++ written_by i b.
  Proof. unfold written_by. rewrite filter_app. apply map_app. Qed.

  Lemma winv_move s0 pss n x i y : c_ctr s0 + total pss < two64 -> winv s0 pss n x -> w_move C CE x i = Some y ->
    exists n', n = S n' /\ winv s0 pss n' y.
  Proof.
    intros Hlt [(gs & log & F & Ps & St & Own & Oth & Nd & Rng & Ctr & Tot & Snt)] M. unfold w_move in M.
    destruct (nth_error (w_progs x) i) as [[a| |R e f]|] eqn:En; try discriminate M.
    pose proof (held_left _ _ F) as HL.
    assert (exists r s, cexec C CE e (w_cs x) = (r, s)) as (r & s & Ex) by (destruct (cexec C CE e (w_cs x)); eauto).
    rewrite Ex in M. destruct (put_split (f r) _ i _ En) as (p1 & p2 & Ep & Lp & Eput). rewrite Eput in M. injection M as <-.
    rewrite Ep in F. apply Forall2_app_inv_l in F. destruct F as (g1 & g2' & F1 & F2 & ->).
    inversion F2 as [|? g ? g2 Hg F3]; subst. clear F2.
    assert (Lg : length p1 = length g1) by (clear - F1; induction F1; cbn; auto). unfold gok in Hg.
    destruct (g_k g) as [|k] eqn:Ek; [destruct Hg as [X _]; discriminate X|]. cbn [wok] in Hg.
    exists (steps g1 + (k + steps g2))%nat. split; [rewrite steps_app, steps_cons, Ek; lia|].
    rewrite !held_app, !held_cons in *. rewrite left_app, left_cons in *.
    (* a step that neither takes a counter nor sends *)
    assert (Quiet : forall pr s, wok k pr (g_have g) (g_rest g) (map written (g_ps g)) -> c_ctr s = c_ctr (w_cs x) -> c_sent s = c_sent (w_cs x) ->
        winv s0 (map g_ps (g1 ++ g :: g2)) (steps g1 + (k + steps g2)) {| w_progs := p1 ++ pr :: p2; w_cs := s |}).
    { intros pr s' Hw Ec Es. constructor. exists (g1 ++ {| g_k := k; g_have := g_have g; g_rest := g_rest g; g_ps := g_ps g |} :: g2), log.
      cbn [w_cs w_progs]. rewrite Ec, Es, held_app, held_cons, steps_app, steps_cons, left_app, left_cons. cbn [g_k g_have g_rest g_ps].
      split; [apply Forall2_app; [exact F1|constructor; [exact Hw|exact F3]]|]. split; [rewrite !map_app; reflexivity|].
      split; [reflexivity|]. split.
      { intros j h Hj. destruct (Nat.eq_dec j (length g1)) as [->|Hne].
        - rewrite nth_error_app2, Nat.sub_diag in Hj by lia. cbn in Hj. injection Hj as <-. cbn [g_rest g_ps].
          apply Own. rewrite nth_error_app2, Nat.sub_diag by lia. reflexivity.
        - apply Own. destruct (Nat.lt_ge_cases j (length g1)).
          + rewrite nth_error_app1 in * by lia. exact Hj.
          + rewrite nth_error_app2 in * by lia. destruct (j - length g1)%nat eqn:Z; [lia|]. exact Hj. }
      split; [intros j Hj; apply Oth; rewrite app_length in *; exact Hj|]. auto 10. }
    destruct e; cbn [cexec] in Ex; try contradiction Hg.
    - (* CWrite *)
      destruct Hg as (c & p & rest' & Eh & Er & -> & Hw). destruct Wk as [Ww _].
      destruct (Ww (c_step (w_cs x)) (octets_for c p)) as [W1 W2]. destruct (ce_write CE (c_step (w_cs x)) (octets_for c p)) as [m err].
      cbn [fst snd] in W1, W2. subst err. rewrite N.min_r in Ex by exact W1. injection Ex as <- <-.
      rewrite Eh, Er in *. cbn [app] in *.
      constructor. exists (g1 ++ {| g_k := k; g_have := None; g_rest := rest'; g_ps := g_ps g |} :: g2), (log ++ [(length g1, (c, p))]).
      cbn [w_cs w_progs c_add_sent c_tick c_ctr c_sent]. rewrite held_app, held_cons, steps_app, steps_cons, left_app, left_cons. cbn [g_k g_have g_rest g_ps app].
      split; [apply Forall2_app; [exact F1|constructor; [exact Hw|exact F3]]|]. split; [rewrite !map_app; reflexivity|].
      split; [reflexivity|].
      assert (Own0 : written_by (length g1) log ++ p :: rest' = g_ps g).
      { rewrite <- Er. apply Own. rewrite nth_error_app2, Nat.sub_diag by lia. reflexivity. }
      split.
      { intros j h Hj. rewrite written_app. unfold written_by at 2. cbn [filter fst]. destruct (Nat.eqb_spec (length g1) j) as [<-|Hne].
        - rewrite nth_error_app2, Nat.sub_diag in Hj by lia. cbn in Hj. injection Hj as <-. cbn [g_rest g_ps map]. rewrite <- app_assoc. exact Own0.
        - cbn [map]. rewrite app_nil_r. apply Own. destruct (Nat.lt_ge_cases j (length g1)).
          + rewrite nth_error_app1 in * by lia. exact Hj.
          + rewrite nth_error_app2 in * by lia. destruct (j - length g1)%nat eqn:Z; [lia|]. exact Hj. }
      split.
      { intros j Hj. rewrite written_app. unfold written_by at 2. cbn [filter fst]. rewrite app_length in Hj. cbn [length] in Hj.
        destruct (Nat.eqb_spec (length g1) j) as [Z|_]; [lia|]. cbn [map]. rewrite app_nil_r. apply Oth. rewrite app_length. cbn [length]. lia. }
      assert (Pm : Permutation (map log_ctr log ++ held g1 ++ c :: held g2) (map log_ctr (log ++ [(length g1, (c, p))]) ++ held g1 ++ held g2)).
      { rewrite map_app. cbn [map log_ctr fst snd]. rewrite <- app_assoc. apply Permutation_app_head. cbn [app]. symmetry. apply Permutation_middle. }
      split; [eapply Permutation_NoDup; [exact Pm|exact Nd]|].
      split; [rewrite Forall_forall in *; intros z Hz; apply Rng; eapply Permutation_in; [symmetry; exact Pm|exact Hz]|].
      rewrite !lenN_app, ?lenN_cons in *. cbn [lenN length] in *. split; [rewrite Ctr; unfold lenN; cbn; lia|].
      split; [unfold lenN in *; cbn in *; lia|]. rewrite Snt, map_app, app_assoc. cbn [map log_ctr log_msg fst snd]. rewrite octets_len. reflexivity.
    - (* CDeadline *)
      injection Ex as <- <-. apply Quiet; [rewrite (proj2 Wk); exact Hg|reflexivity|reflexivity].
    - (* CAdd *)
      destruct Hg as (Eh & Hr & Hw). rewrite Eh in *. cbn [app] in *.
      set (c := c_ctr (w_cs x) + 1).
      assert (Hc : c < two64).
      { unfold c. rewrite Ctr, lenN_app. destruct (g_rest g) as [|q rest'] eqn:Er; [congruence|]. rewrite lenN_cons in Tot. 
        pose proof (held_left _ _ F1). pose proof (held_left _ _ F3). lia. }
      rewrite N.mod_small in Ex by exact Hc. fold c in Ex. injection Ex as <- <-.
      constructor. exists (g1 ++ {| g_k := k; g_have := Some c; g_rest := g_rest g; g_ps := g_ps g |} :: g2), log.
      cbn [w_cs w_progs c_set_ctr c_ctr c_sent]. rewrite held_app, held_cons, steps_app, steps_cons, left_app, left_cons. cbn [g_k g_have g_rest g_ps app].
      split; [apply Forall2_app; [exact F1|constructor; [apply Hw; unfold c; lia|exact F3]]|]. split; [rewrite !map_app; reflexivity|].
      split; [reflexivity|]. split.
      { intros j h Hj. destruct (Nat.eq_dec j (length g1)) as [->|Hne].
        - rewrite nth_error_app2, Nat.sub_diag in Hj by lia. cbn in Hj. injection Hj as <-. cbn [g_rest g_ps].
          apply Own. rewrite nth_error_app2, Nat.sub_diag by lia. reflexivity.
        - apply Own. destruct (Nat.lt_ge_cases j (length g1)).
          + rewrite nth_error_app1 in * by lia. exact Hj.
          + rewrite nth_error_app2 in * by lia. destruct (j - length g1)%nat eqn:Z; [lia|]. exact Hj. }
      split; [intros j Hj; apply Oth; rewrite app_length in *; exact Hj|].
      assert (Pm : Permutation (c :: map log_ctr log ++ held g1 ++ held g2) (map log_ctr log ++ held g1 ++ c :: held g2)).
      { rewrite !app_assoc. apply Permutation_middle. }
      split.
      { eapply Permutation_NoDup; [exact Pm|]. constructor; [|exact Nd]. intros Hin. rewrite Forall_forall in Rng. apply Rng in Hin. unfold c in Hin. lia. }
      split.
      { rewrite Forall_forall in *. intros z Hz. apply (Permutation_in z (Permutation_sym Pm)) in Hz. destruct Hz as [<-|Hz]; [unfold c; lia|].
        apply Rng in Hz. unfold c. lia. }
      rewrite !lenN_app, ?lenN_cons in *. split; [unfold c; lia|]. split; [exact Tot|exact Snt].
    - (* CSetLast *)
      injection Ex as <- <-. apply Quiet; [exact Hg|reflexivity|reflexivity].
    - (* CSeal *)
      injection Ex as <- <-. apply Quiet; [exact Hg|reflexivity|reflexivity].
  Qed.

  Lemma winv_run s0 pss : c_ctr s0 + total pss < two64 -> forall sched n x y, winv s0 pss n x -> w_run C CE sched x = Some y ->
    exists n', winv s0 pss n' y.
  Proof.
    intros Hlt. induction sched as [|i sched IH]; intros n x y I R; cbn [w_run] in R; [injection R as <-; eauto|].
    destruct (w_move C CE x i) as [x1|] eqn:M; [|discriminate R]. destruct (winv_move _ _ _ _ _ _ Hlt I M) as (n' & _ & I'). eapply IH; eassumption.
  Qed.
  Lemma winv_ends s0 pss : c_ctr s0 + total pss < two64 -> forall n x, winv s0 pss n x -> always_ends (w_move C CE) x.
  Proof.
    intros Hlt. unfold always_ends. induction n as [|n IH]; intros x I; constructor; intros y (i & M);
      destruct (winv_move _ _ _ _ _ _ Hlt I M) as (n' & E & I'); [discriminate E|]. injection E as <-. apply IH, I'.
  Qed.

  (** When nobody can move, everybody is done. *)
  Lemma winv_stuck s0 pss n x : winv s0 pss n x -> (exists i, w_move C CE x i <> None) \/
    w_progs x = map (fun ps => CRet (map written ps)) pss /\
    exists log : sent_log, interleaves pss log /\ NoDup (map log_ctr log) /\
      Forall (fun e => c_ctr s0 < log_ctr e <= c_ctr s0 + total pss) log /\
      c_sent (w_cs x) = c_sent s0 ++ map (fun e => (octets_for (log_ctr e) (log_msg e), lenN (log_msg e) + 50)) log.
  Proof.
    intros [(gs & log & F & Ps & St & Own & Oth & Nd & Rng & Ctr & Tot & Snt)].
    assert (X : (exists i e, nth_error (w_progs x) i = Some e /\ match e with CDo _ _ => True | _ => False end) \/
      Forall2 (fun pr g => pr = CRet (map written (g_ps g)) /\ g_have g = None /\ g_rest g = []) (w_progs x) gs).
    { clear - F. induction F as [|pr g prs gs Hg F IH]; [right; constructor|]. destruct IH as [(i & e & H1 & H2)|IH].
      - left. exists (S i), e. auto.
      - unfold gok in Hg. destruct (g_k g) as [|k]; cbn [wok] in Hg.
        + right. constructor; auto.
        + left. exists O, pr. split; [reflexivity|]. destruct pr; auto. }
    destruct X as [(i & e & H1 & H2)|X].
    - left. exists i. unfold w_move. rewrite H1. destruct e as [a| |R e f]; try contradiction. destruct (cexec C CE e (w_cs x)). discriminate.
    - right. assert (Hh : held gs = []).
      { clear - X. induction X as [|pr g prs gs (_ & H & _) _ IH]; [reflexivity|]. rewrite held_cons, H, IH. reflexivity. }
      assert (Hl : forall g, In g gs -> g_rest g = []).
      { clear - X. induction X as [|pr g prs gs (_ & _ & H) _ IH]; [intros g []|]. intros h [<-|Hh]; [exact H|apply IH, Hh]. }
      split.
      { rewrite <- Ps. clear - X. induction X as [|pr g prs gs (H & _) _ IH]; [reflexivity|]. cbn [map]. rewrite H, IH. reflexivity. }
      rewrite Hh, app_nil_r in *. exists log. split.
      { intros i. destruct (nth_error gs i) as [g|] eqn:Eg.
        - specialize (Own i g Eg). rewrite (Hl g (nth_error_In _ _ Eg)), app_nil_r in Own. rewrite Own. symmetry. apply nth_error_nth.
          rewrite <- Ps, nth_error_map, Eg. reflexivity.
        - apply nth_error_None in Eg. rewrite (Oth i Eg). symmetry. apply nth_overflow. rewrite <- Ps, map_length. exact Eg. }
      split; [exact Nd|]. split; [|exact Snt].
      rewrite Forall_forall in *. intros e He. specialize (Rng (log_ctr e) (in_map _ _ _ He)).
      cbn in Ctr. unfold total in Tot. rewrite <- Ps in *. unfold total. lia.
  Qed.
End Writers.

(** ** The server *)
Section Serve.
  Variables (C : Crypto) (SE : senv) (o : copts) (ses : csession) (key chost : bytes).
  Hypothesis L : CryptoLaws C.
  Hypothesis Hid : length (cs_id ses) = 16%nat.
  Hypothesis K : client_gcm C (cs_secret ses) = Some key.
  Hypothesis Ws : writes_all SE.
  Hypothesis Np : forall i m, e_handler SE i (co_reply o) m <> HPanic.
  Hypothesis Hq : forall i, e_quit SE i = false.
  Hypothesis Hh : e_host SE = Some chost.

  Lemma serve_one c p rest hist ss : stored C ses chost hist ss -> Forall (fun c => c < two64) hist ->
    c < two64 -> lenN p + 16 <= max_message_size -> s_in ss = octets_for C o ses key c p ++ rest ->
    exists s', srun C SE (conn_body C) ss = (Some true, s') /\ s_in s' = rest /\
      let r := fst (check_and_update (snd (checks new_window hist)) c) in
      stored C ses chost (if r then hist ++ [c] else hist) s' /\
      seen (s_calls s') = seen (s_calls ss) ++ if r then [(c, co_reply o, p)] else [].
  Proof.
    intros [Hwf Hkn] Hhist Hc Hp Hin. set (ct := gcm_seal C key (gcm_nonce dir_c2s c) p).
    assert (Hok : request_ok (RqProcess (cs_id ses) c ct (co_reply o))).
    { split; [exact Hid|]. split; [exact Hc|]. unfold ct. rewrite (gcm_seal_len _ L). exact Hp. }
    pose proof (WF_conn C SE ss Hwf) as WF'.
    destruct (fst (check_and_update (snd (checks new_window hist)) c)) eqn:F.
    - assert (Hnr : ~ refused_after hist c) by (apply fresh_iff; assumption).
      pose proof (process_accepted C SE ss chost (cs_id ses) ct rest c (co_reply o) Hok Hin (Hq _) Hh) as PA.
      specialize (PA _ hist Hkn Hhist eq_refl Hwf Hnr key (eq_trans (eq_sym (client_server_gcm C _)) K) p (gcm_open_seal _ L _ _ _)).
      destruct (srun C SE (conn_body C) ss) as [res s']. cbn [fst snd] in WF'.
      destruct PA as ((ptr & Pc) & [Pk _] & Pin & i & Pr). exists s'.
      assert (Hres : res = Some true).
      { specialize (Np i p). destruct (e_handler SE i (co_reply o) p) as [a| |]; [| |contradiction].
        - destruct (co_reply o); [apply Pr, Ws|apply Pr].
        - apply Pr, Ws. }
      split; [rewrite Hres; reflexivity|]. split; [exact Pin|]. cbv zeta. split; [split; assumption|].
      rewrite Pc. unfold seen. rewrite map_app. reflexivity.
    - assert (Hr : refused_after hist c).
      { pose proof (fresh_iff hist c Hhist Hc) as FI. rewrite F in FI. unfold refused_after in *. cbv zeta in *.
        destruct (N.eq_dec c 0); [left; assumption|].
        destruct (in_dec N.eq_dec c (accepted hist (fst (checks new_window hist)))); [right; left; assumption|].
        destruct (N.le_gt_cases (c + 64) (highest (accepted hist (fst (checks new_window hist))))); [right; right; assumption|].
        exfalso. assert (X : false = true); [|discriminate X]. apply FI. intros [X|[X|X]]; [contradiction|contradiction|lia]. }
      pose proof (process_replay_text C SE ss chost (cs_id ses) ct rest c (co_reply o) Hok Hin (Hq _) Hh _ hist Hkn Hhist eq_refl Hr) as PR.
      destruct (srun C SE (conn_body C) ss) as [res s']. cbn [fst snd] in WF'.
      destruct PR as (_ & Pc & Ps & Pin & Pw). exists s'. split; [rewrite (Pw Ws); reflexivity|]. split; [exact Pin|]. cbv zeta.
      split; [split; [exact WF'|]|].
      + rewrite (Ps chost (cs_id ses)). exact Hkn.
      + unfold no_calls in Pc. rewrite Pc, app_nil_r. reflexivity.
  Qed.

  Lemma serve_log : forall (log : sent_log) fuel hist ss,
    Forall (fun e => log_ctr e < two64 /\ lenN (log_msg e) + 16 <= max_message_size) log ->
    stored C ses chost hist ss -> Forall (fun c => c < two64) hist ->
    s_in ss = concat (map (fun e => octets_for C o ses key (log_ctr e) (log_msg e)) log) -> (length log < fuel)%nat ->
    exists ss', serve C SE fuel ss = (Closed, ss') /\
      seen (s_calls ss') = seen (s_calls ss) ++
        map (fun e => (log_ctr e, co_reply o, log_msg e)) (kept log (fst (checks (snd (checks new_window hist)) (map log_ctr log)))).
  Proof.
    induction log as [|e log IH]; intros fuel hist ss Hl Hst Hhist Hin Hf; cbn [map concat length] in *; (destruct fuel as [|fuel]; [lia|]); cbn [serve].
    - destruct (conn_body_eof C SE ss (Hq _) Hin) as (t & -> & ->). exists (tick ss). cbn. rewrite app_nil_r. auto.
    - inversion Hl as [|? ? [H1 H2] H3]; subst.
      destruct (serve_one _ _ _ hist ss Hst Hhist H1 H2 Hin) as (s' & -> & Hin' & Hst' & Hc'). cbv zeta in Hst', Hc'.
      set (hist' := if fst (check_and_update (snd (checks new_window hist)) (log_ctr e)) then hist ++ [log_ctr e] else hist) in *.
      assert (Hh' : Forall (fun c => c < two64) hist').
      { unfold hist'. destruct (fst _); [apply Forall_app; split; [exact Hhist|repeat constructor; exact H1]|exact Hhist]. }
      destruct (IH fuel hist' s' H3 Hst' Hh' Hin' ltac:(lia)) as (ss' & -> & Hc''). exists ss'. split; [reflexivity|].
      rewrite Hc'', Hc', <- app_assoc. f_equal. cbn [checks].
      assert (W : snd (checks new_window hist') = snd (check_and_update (snd (checks new_window hist)) (log_ctr e))).
      { unfold hist'. destruct (fst (check_and_update (snd (checks new_window hist)) (log_ctr e))) eqn:F.
        - rewrite checks_app. destruct (checks new_window hist) as [rs w]. cbn [fst snd checks]. destruct (check_and_update w (log_ctr e)); reflexivity.
        - rewrite (stale_keeps _ _ F). reflexivity. }
      rewrite W. destruct (check_and_update (snd (checks new_window hist)) (log_ctr e)) as [r w]. cbn [fst snd].
      destruct (checks w (map log_ctr log)) as [rs w']. cbn [fst kept]. destruct r; reflexivity.
  Qed.
End Serve.

Lemma wire_log C o ses key (log : sent_log) : CryptoLaws C -> length (cs_id ses) = 16%nat ->
  wire (map (fun e => (octets_for C o ses key (log_ctr e) (log_msg e), lenN (log_msg e) + 50)) log) =
  concat (map (fun e => octets_for C o ses key (log_ctr e) (log_msg e)) log).
Proof.
  intros L Hid. unfold wire. rewrite map_map. f_equal. apply map_ext. intros e. cbn [fst snd].
  apply takeN_whole. rewrite (octets_len C o ses key L Hid). lia.
Qed.

Lemma octets_long C o ses key (log : sent_log) : CryptoLaws C -> length (cs_id ses) = 16%nat ->
  (length log <= length (concat (map (fun e => octets_for C o ses key (log_ctr e) (log_msg e)) log)))%nat.
Proof.
  intros L Hid. induction log as [|e log IH]; [cbn; lia|]. cbn [map concat length]. rewrite app_length.
  pose proof (octets_len C o ses key L Hid (log_ctr e) (log_msg e)) as X. unfold lenN in X. lia.
Qed.

(** The whole. *)
Lemma writers_end C CE SE o ses chost pss hist cs ss : CryptoLaws C -> c_works CE -> writes_all SE ->
  (forall i m, e_handler SE i (co_reply o) m <> HPanic) -> (forall i, e_quit SE i = false) -> e_host SE = Some chost ->
  paired C ses chost hist cs ss -> c_ctr cs + total pss < two64 ->
  (forall ps p, In ps pss -> In p ps -> lenN p + 16 <= 2 ^ 30) ->
  let x := several C o ses pss cs in
  always_ends (w_move C CE) x /\
  forall sched y, w_run C CE sched x = Some y ->
    (exists i, w_move C CE y i <> None) \/
    w_progs y = map (fun ps => CRet (map (fun p => WrConn (lenN p + 50) false) ps)) pss /\
    exists log, interleaves pss log /\ NoDup (map log_ctr log) /\
      Forall (fun e => c_ctr cs < log_ctr e <= c_ctr cs + total pss) log /\
      let '(fate, ss') := serve_conn C SE (set_in ss (sent_by_client cs (w_cs y))) in
      fate = Closed /\
      exists before rs final, length before = length hist /\ filter_run 64 [] (hist ++ map log_ctr log) (before ++ rs) final /\
        seen (s_calls ss') = seen (s_calls ss) ++ map (fun e => (log_ctr e, co_reply o, log_msg e)) (kept log rs).
Proof.
  intros L Wk Ws Np Hq Hh [Hwf Hid Hkn Hhist Hbuf] Hlt Hp. cbv zeta.
  destruct (client_gcm_some C L (cs_secret ses)) as (key & K).
  destruct (winv_init C o ses key L Hid K cs pss) as (n & I). split; [exact (winv_ends C CE o ses key L Hid Wk cs pss Hlt n _ I)|].
  intros sched y R. destruct (winv_run C CE o ses key L Hid Wk cs pss Hlt sched n _ y I R) as (n' & I').
  destruct (winv_stuck C CE o ses key Hid cs pss n' y I') as [M|(Done & log & Il & Nd & Rng & Snt)]; [left; exact M|right].
  split; [exact Done|]. exists log. split; [exact Il|]. split; [exact Nd|]. split; [exact Rng|].
  unfold sent_by_client. rewrite Snt, skipn_app_exact, (wire_log C o ses key log L Hid).
  assert (Good : Forall (fun e => log_ctr e < two64 /\ lenN (log_msg e) + 16 <= max_message_size) log).
  { rewrite Forall_forall in *. intros e He. split; [apply Rng in He; lia|].
    assert (X : In (log_msg e) (nth (fst e) pss [])).
    { rewrite <- (Il (fst e)). unfold written_by. apply in_map_iff. exists e. split; [reflexivity|]. apply filter_In. split; [exact He|apply Nat.eqb_refl]. }
    destruct (Nat.lt_ge_cases (fst e) (length pss)) as [Hi|Hi]; [|rewrite nth_overflow in X by exact Hi; destruct X].
    exact (Hp _ _ (nth_In _ _ Hi) X). }
  unfold serve_conn. cbn [set_in s_in].
  destruct (serve_log C SE o ses key chost L Hid K Ws Np Hq Hh log
    (S (S (length (concat (map (fun e => octets_for C o ses key (log_ctr e) (log_msg e)) log))))) hist
    (set_in ss (concat (map (fun e => octets_for C o ses key (log_ctr e) (log_msg e)) log))) Good) as (ss' & R' & Hc).
  - split; [apply (wf_same ss); auto|exact Hkn].
  - exact Hhist.
  - reflexivity.
  - pose proof (octets_long C o ses key log L Hid). lia.
  - rewrite R'. split; [reflexivity|].
    assert (Hall : Forall (fun c => c < two64) (hist ++ map log_ctr log)).
    { apply Forall_app. split; [exact Hhist|]. rewrite Forall_forall in *. intros c Hin. apply in_map_iff in Hin. destruct Hin as (e & <- & Hin). apply Good, Hin. }
    pose proof (checks_app new_window hist (map log_ctr log)) as CA.
    destruct (checks_refine _ _ _ _ _ represents_init Hall CA) as (final & FR & _).
    destruct (checks_total new_window hist) as (b & w & Ew & Lb). rewrite Ew in *. cbn [fst snd] in *.
    exists b, (fst (checks w (map log_ctr log))), final. split; [exact Lb|]. split; [exact FR|]. exact Hc.
Qed.

(** A filter lets everything new pass that lags less than 64 behind. *)
Lemma lags_pass hist cs before rs final c0 : Forall (fun c => c < two64) hist -> Forall (fun c => c <= c0) hist ->
  Forall (fun c => c0 < c < two64) cs -> NoDup cs -> (forall l c l', cs = l ++ c :: l' -> forall d, In d l -> d < c + 64) ->
  length before = length hist -> filter_run 64 [] (hist ++ cs) (before ++ rs) final -> rs = repeat true (length cs).
Proof.
  intros Hhist Hle Hcs Hnd Hlag Lb FR.
  destruct (checks new_window hist) as [b0 w0] eqn:Ew.
  destruct (checks_refine _ _ _ _ _ represents_init Hhist Ew) as (s0 & F0 & R0).
  assert (Hall : Forall (fun c => c < two64) cs) by (eapply Forall_impl; [|exact Hcs]; cbv beta; intros; lia).
  pose proof (checks_app new_window hist cs) as CA. rewrite Ew in CA. cbn [fst snd] in CA.
  destruct (checks_refine _ _ _ _ _ represents_init (proj2 (Forall_app _ _ _) (conj Hhist Hall)) CA) as (f1 & F1 & _).
  destruct (filter_run_det _ _ _ _ _ _ _ FR F1) as [Eq _].
  assert (Lb0 : length b0 = length before).
  { destruct (checks_total new_window hist) as (x & y & Z & Lx). rewrite Ew in Z. injection Z as -> ->. congruence. }
  assert (X : rs = fst (checks w0 cs)).
  { clear - Eq Lb0. revert b0 Lb0 Eq. induction before as [|y b IH]; intros [|z b0] Lb Eq; try discriminate Lb; [exact Eq|].
    injection Eq as _ Eq. injection Lb as Lb. apply (IH b0); assumption. }
  assert (S0 : forall x, In x s0 -> x <= c0).
  { intros x Hx. apply (filter_seen _ _ _ _ _ F0) in Hx. destruct Hx as [[]|Hx]. apply accepted_sub in Hx. rewrite Forall_forall in Hle. apply Hle, Hx. }
  pose proof (filter_final_nodup _ _ _ _ _ F0 (NoDup_nil _)) as N0.
  rewrite X. apply (reorder_aux s0 w0 cs R0).
  - eapply Forall_impl; [|exact Hcs]. cbv beta. intros. lia.
  - clear - S0 N0 Hnd Hcs. induction Hnd as [|c cs Hni _ IH]; cbn [app]; [exact N0|]. inversion Hcs as [|? ? H1 H2]; subst. constructor; [|apply IH, H2].
    intros Hin. apply in_app_or in Hin. destruct Hin as [Hin|Hin]; [exact (Hni Hin)|]. apply S0 in Hin. lia.
  - intros p c q E. assert (Hc : c0 < c) by (rewrite Forall_forall in Hcs; specialize (Hcs c ltac:(rewrite E; apply in_elt)); lia).
    assert (Hb : Forall (fun x => x <= c + 63) (p ++ s0)); [|apply highest_le in Hb; lia].
    apply Forall_app. split; apply Forall_forall; intros x Hx; [specialize (Hlag p c q E x Hx); lia|apply S0 in Hx; lia].
Qed.

(** At most 64 messages: all are handled. *)
Lemma writers_all C CE SE o ses chost pss hist cs ss : CryptoLaws C -> c_works CE -> writes_all SE ->
  (forall i m, e_handler SE i (co_reply o) m <> HPanic) -> (forall i, e_quit SE i = false) -> e_host SE = Some chost ->
  paired C ses chost hist cs ss -> Forall (fun c => c <= c_ctr cs) hist -> c_ctr cs + total pss < two64 -> total pss <= 64 ->
  (forall ps p, In ps pss -> In p ps -> lenN p + 16 <= 2 ^ 30) ->
  forall sched y, w_run C CE sched (several C o ses pss cs) = Some y ->
    (exists i, w_move C CE y i <> None) \/
    exists log, interleaves pss log /\
      seen (s_calls (snd (serve_conn C SE (set_in ss (sent_by_client cs (w_cs y)))))) =
      seen (s_calls ss) ++ map (fun e => (log_ctr e, co_reply o, log_msg e)) log.
Proof.
  intros L Wk Ws Np Hq Hh P Hle Hlt H64 Hp sched y R.
  destruct (writers_end C CE SE o ses chost pss hist cs ss L Wk Ws Np Hq Hh P Hlt Hp) as [_ G]. specialize (G sched y R).
  destruct G as [M|(_ & log & Il & Nd & Rng & G)]; [left; exact M|right]. exists log. split; [exact Il|].
  destruct (serve_conn C SE _) as [fate ss']. destruct G as (_ & b & rs & final & Lb & FR & Hc). cbn [snd]. rewrite Hc.
  assert (X : rs = repeat true (length (map log_ctr log))).
  { apply (lags_pass hist _ b _ final (c_ctr cs)); auto.
    - apply P.
    - rewrite Forall_forall in *. intros c Hin. apply in_map_iff in Hin. destruct Hin as (e & <- & Hin). apply Rng in Hin. lia.
    - intros l c l' E d Hd. rewrite Forall_forall in Rng.
      assert (A : forall z, In z (map log_ctr log) -> c_ctr cs < z <= c_ctr cs + total pss).
      { intros z Hz. apply in_map_iff in Hz. destruct Hz as (e & <- & He). apply Rng, He. }
      assert (A1 := A c). assert (A2 := A d). rewrite E in A1, A2. specialize (A1 (in_elt _ _ _)). specialize (A2 (in_or_app _ _ _ (or_introl Hd))). lia. }
  rewrite X, map_length, kept_all. reflexivity.
Qed.

(** ** A goroutine that is overtaken *)
Lemma solo C CE l1 l2 : forall (pr : cprog (list wr_result)) s a s', crun C CE pr s = (Some a, s') ->
  exists k, w_run C CE (repeat (length l1) k) {| w_progs := l1 ++ pr :: l2; w_cs := s |} = Some {| w_progs := l1 ++ CRet a :: l2; w_cs := s' |}.
Proof.
  assert (Put : forall (x y : cprog (list wr_result)), put (length l1) x (l1 ++ y :: l2) = l1 ++ x :: l2).
  { intros x y. induction l1 as [|z l IH]; cbn; [reflexivity|]. rewrite IH. reflexivity. }
  induction pr as [b| |R e k IH]; intros s a s' H; cbn [crun] in H; [injection H as -> ->; exists O; reflexivity|discriminate H|].
  destruct (cexec C CE e s) as [r s1] eqn:Ex. destruct (IH r s1 a s' H) as (n & Hn). exists (S n). cbn [repeat w_run]. unfold w_move. cbn [w_progs w_cs].
  rewrite nth_error_app2, Nat.sub_diag by lia. cbn [nth_error]. rewrite Ex, Put. exact Hn.
Qed.
Lemma w_run_app C CE a : forall b x, w_run C CE (a ++ b) x = match w_run C CE a x with Some y => w_run C CE b y | None => None end.
Proof. induction a as [|i a IH]; intros b x; cbn; [reflexivity|]. destruct (w_move C CE x i); auto. Qed.

Fixpoint numbered (i : nat) (c : N) (ps : list bytes) : sent_log :=
  match ps with [] => [] | p :: ps => (i, (c, p)) :: numbered i (c + 1) ps end.
Lemma numbered_len i : forall ps c, length (numbered i c ps) = length ps.
Proof. induction ps as [|p ps IH]; intros c; cbn; auto. Qed.
Lemma numbered_msgs i : forall ps c, map log_msg (numbered i c ps) = ps.
Proof. induction ps as [|p ps IH]; intros c; cbn; [reflexivity|]. rewrite IH. reflexivity. Qed.
Lemma numbered_in i : forall ps c e, In e (numbered i c ps) -> c <= log_ctr e < c + lenN ps /\ In (log_msg e) ps.
Proof.
  induction ps as [|p ps IH]; intros c e; [intros []|]. rewrite lenN_cons. intros [<-|H].
  - cbn. split; [lia|left; reflexivity].
  - apply IH in H. split; [lia|right; apply H].
Qed.
Lemma numbered_nodup i : forall ps c, NoDup (map log_ctr (numbered i c ps)).
Proof.
  induction ps as [|p ps IH]; intros c; cbn; constructor; [|apply IH]. intros H. apply in_map_iff in H. destruct H as (e & E & H). apply numbered_in in H. lia.
Qed.
Lemma numbered_last i : forall ps c, ps <> [] -> In (c + lenN ps - 1) (map log_ctr (numbered i c ps)).
Proof.
  induction ps as [|p ps IH]; intros c H; [congruence|]. cbn [numbered map]. rewrite lenN_cons. destruct ps as [|q ps].
  - left. cbn. lia.
  - right. replace (c + (1 + lenN (q :: ps)) - 1) with (c + 1 + lenN (q :: ps) - 1) by lia. apply IH. discriminate.
Qed.
Lemma numbered_lags i : forall ps c0 l c l', map log_ctr (numbered i c0 ps) = l ++ c :: l' -> forall d, In d l -> d < c.
Proof.
  induction ps as [|p ps IH]; intros c0 l c l' E d Hd; [destruct l; discriminate E|]. cbn [numbered map] in E. destruct l as [|x l]; [destruct Hd|].
  cbn [app] in E. injection E as <- E. destruct Hd as [<-|Hd]; [|exact (IH _ _ _ _ E d Hd)].
  assert (H : In c (map log_ctr (numbered i (c0 + 1) ps))) by (rewrite E; apply in_elt). apply in_map_iff in H. destruct H as (e & <- & H).
  apply numbered_in in H. change (log_ctr (i, (c0, p))) with c0. lia.
Qed.

Lemma crun_loop C CE o ses key i : CryptoLaws C -> length (cs_id ses) = 16%nat -> client_gcm C (cs_secret ses) = Some key -> c_works CE ->
  forall ps s, c_ctr s + lenN ps < two64 -> exists s', crun C CE (write_loop C o ses ps) s = (Some (map written ps), s') /\
    c_sent s' = c_sent s ++ map (fun e => (octets_for C o ses key (log_ctr e) (log_msg e), lenN (log_msg e) + 50)) (numbered i (c_ctr s + 1) ps).
Proof.
  intros L Hid K [Ww Wd]. induction ps as [|p ps IH]; intros s Hlt; [exists s; cbn; rewrite app_nil_r; auto|]. rewrite lenN_cons in Hlt.
  assert (W : exists s1, crun C CE (client_write C o ses p) s = (Some (written p), s1) /\ c_ctr s1 = c_ctr s + 1 /\
    c_sent s1 = c_sent s ++ [(octets_for C o ses key (c_ctr s + 1) p, lenN p + 50)]).
  { unfold client_write. rewrite K.
    assert (X : forall s0, c_ctr s0 = c_ctr s -> c_sent s0 = c_sent s -> exists s1, crun C CE (doc c <- cdo CAdd;
        if c =? 0 then CRet WrExhausted
        else
          doc _ <- cdo (CSetLast c);
          doc ct <- cdo (CSeal c key (gcm_nonce dir_c2s c) p);
          doc w <- cdo (CWrite (enc_process_req (new_process_request (cs_id ses) c ct (co_reply o))));
          CRet (WrConn (fst w) (snd w))) s0 = (Some (written p), s1) /\ c_ctr s1 = c_ctr s + 1 /\
        c_sent s1 = c_sent s ++ [(octets_for C o ses key (c_ctr s + 1) p, lenN p + 50)]).
    { intros s0 E1 E2. cbn [cdo cbind crun cexec]. rewrite E1, N.mod_small by lia. destruct (N.eqb_spec (c_ctr s + 1) 0); [lia|].
      cbn [cdo cbind crun cexec]. change (enc_process_req _) with (octets_for C o ses key (c_ctr s + 1) p).
      match goal with |- context [ce_write CE ?k ?b] => destruct (Ww k b) as [W1 W2]; destruct (ce_write CE k b) as [m err] end.
      cbn [fst snd] in W1, W2. subst err. rewrite N.min_r by exact W1. rewrite (octets_len C o ses key L Hid).
      eexists. split; [reflexivity|]. cbn. rewrite E2. auto. }
    destruct (co_wto o); [|apply X; reflexivity].
    cbn [cdo cbind crun cexec]. rewrite Wd. apply X; reflexivity. }
  destruct W as (s1 & R & E1 & E2). destruct (IH s1 ltac:(lia)) as (s2 & R2 & E3). exists s2. cbn [write_loop].
  assert (B : forall A B (q : cprog A) (f : A -> cprog B) s, crun C CE (cbind q f) s = match crun C CE q s with (Some a, s1) => crun C CE (f a) s1 | (None, s1) => (None, s1) end).
  { clear. intros A B q f. induction q as [a| |R e k IH]; intros s; [reflexivity|reflexivity|]. cbn [cbind crun]. destruct (cexec C CE e s). apply IH. }
  rewrite B, R, B, R2. split; [reflexivity|]. rewrite E3, E2, E1, <- app_assoc. reflexivity.
Qed.

(** The answers of the filter. *)
Lemma overtaken_refused hist c0 (log : sent_log) : Forall (fun c => c < two64) hist -> Forall (fun c => c <= c0) hist ->
  forall i ps, log = numbered i (c0 + 2) ps -> length ps = 64%nat -> c0 + 65 < two64 ->
  fst (checks (snd (checks new_window hist)) (map log_ctr log ++ [c0 + 1])) = repeat true 64 ++ [false].
Proof.
  intros Hhist Hle i ps -> H64 Hlt.
  assert (Hps : lenN ps = 64) by (unfold lenN; rewrite H64; reflexivity).
  destruct (checks new_window hist) as [b0 w0] eqn:Ew. cbn [snd].
  destruct (checks_refine _ _ _ _ _ represents_init Hhist Ew) as (s0 & F0 & R0).
  assert (S0 : forall x, In x s0 -> x <= c0).
  { intros x Hx. apply (filter_seen _ _ _ _ _ F0) in Hx. destruct Hx as [[]|Hx]. apply accepted_sub in Hx. rewrite Forall_forall in Hle. apply Hle, Hx. }
  pose proof (filter_final_nodup _ _ _ _ _ F0 (NoDup_nil _)) as N0.
  set (cs := map log_ctr (numbered i (c0 + 2) ps)).
  assert (Hcs : Forall (fun c => c0 + 1 < c < two64) cs).
  { apply Forall_forall. intros c H. apply in_map_iff in H. destruct H as (e & <- & H). apply numbered_in in H. lia. }
  assert (A : fst (checks w0 cs) = repeat true (length cs)).
  { apply (reorder_aux s0 w0 cs R0).
    - eapply Forall_impl; [|exact Hcs]. cbv beta. intros. lia.
    - pose proof (numbered_nodup i ps (c0 + 2)) as Hnd. fold cs in Hnd.
      clear - S0 N0 Hnd Hcs. induction Hnd as [|c cs Hni _ IH]; cbn [app]; [exact N0|]. inversion Hcs as [|? ? H1 H2]; subst. constructor; [|apply IH, H2].
      intros Hin. apply in_app_or in Hin. destruct Hin as [Hin|Hin]; [exact (Hni Hin)|]. apply S0 in Hin. lia.
    - intros p c q E. assert (Hc : c0 + 1 < c) by (rewrite Forall_forall in Hcs; specialize (Hcs c ltac:(rewrite E; apply in_elt)); lia).
      assert (Hb : Forall (fun x => x <= c + 63) (p ++ s0)); [|apply highest_le in Hb; lia].
      apply Forall_app. split; apply Forall_forall; intros x Hx; [pose proof (numbered_lags i ps _ p c q E x Hx); lia|apply S0 in Hx; lia]. }
  assert (Lc : length cs = 64%nat) by (unfold cs; rewrite map_length, numbered_len; exact H64).
  rewrite Lc in A. rewrite checks_app.
  destruct (checks w0 cs) as [rs w1] eqn:E1. cbn [fst] in A. subst rs.
  assert (Hcs2 : Forall (fun c => c < two64) cs) by (eapply Forall_impl; [|exact Hcs]; cbv beta; intros; lia).
  destruct (checks_refine _ _ _ _ _ R0 Hcs2 E1) as (s1 & F1 & R1). cbn [fst snd checks].
  destruct (check_spec w1 s1 (c0 + 1) R1 ltac:(lia)) as [(Ha & _)|(_ & E2)].
  - exfalso. destruct Ha as (_ & _ & Ha).
    assert (In (c0 + 65) s1).
    { apply (filter_seen _ _ _ _ _ F1). right.
      assert (X : In (c0 + 65) cs).
      { unfold cs. replace (c0 + 65) with (c0 + 2 + lenN ps - 1) by lia. apply numbered_last. intros ->. discriminate H64. }
      assert (Y : forall l, accepted l (repeat true (length l)) = l) by (induction l as [|z l IHl]; cbn; [reflexivity|rewrite IHl; reflexivity]).
      rewrite <- Lc, Y. exact X. }
    assert (highest s1 >= c0 + 65); [|lia]. clear - H. induction s1 as [|z l IH]; [destruct H|]. rewrite highest_cons. destruct H as [->|H]; [lia|apply IH in H; lia].
  - rewrite E2. reflexivity.
Qed.

Lemma writers_overtaken C CE SE o ses chost hist cs ss (p : bytes) (qs : list bytes) : CryptoLaws C -> c_works CE -> writes_all SE ->
  (forall i m, e_handler SE i (co_reply o) m <> HPanic) -> (forall i, e_quit SE i = false) -> e_host SE = Some chost ->
  paired C ses chost hist cs ss -> Forall (fun c => c <= c_ctr cs) hist -> c_ctr cs + 65 < two64 ->
  length qs = 64%nat -> Forall (fun p => lenN p + 16 <= 2 ^ 30) (p :: qs) ->
  exists sched y, w_run C CE sched (several C o ses [[p]; qs] cs) = Some y /\
    w_progs y = map (fun ps => CRet (map (fun p => WrConn (lenN p + 50) false) ps)) [[p]; qs] /\
    let '(fate, ss') := serve_conn C SE (set_in ss (sent_by_client cs (w_cs y))) in
    fate = Closed /\ map snd (seen (s_calls ss')) = map snd (seen (s_calls ss)) ++ qs.
Proof.
  intros L Wk Ws Np Hq Hh [Hwf Hid Hkn Hhist Hbuf] Hle Hlt H64 Hp.
  destruct (client_gcm_some C L (cs_secret ses)) as (key & K). inversion Hp as [|? ? Hp1 Hp2]; subst.
  assert (Hqs : lenN qs = 64) by (unfold lenN; rewrite H64; reflexivity).
  set (c := c_ctr cs + 1).
  (* the slow one up to its Write *)
  assert (A : exists l s1 f, w_run C CE l (several C o ses [[p]; qs] cs) =
      Some {| w_progs := [CDo (CWrite (octets_for C o ses key c p)) f; write_loop C o ses qs]; w_cs := s1 |} /\
      c_ctr s1 = c /\ c_sent s1 = c_sent cs /\ forall n, f (n, false) = CRet [WrConn n false]).
  { unfold several. cbn [map]. cbn [write_loop]. unfold client_write. rewrite K.
    assert (X : forall s0 l2, c_ctr s0 = c_ctr cs -> c_sent s0 = c_sent cs -> exists l s1 f, w_run C CE l {| w_progs :=
      (doc r <- (doc c <- cdo CAdd;
        if c =? 0 then CRet WrExhausted
        else
          doc _ <- cdo (CSetLast c);
          doc ct <- cdo (CSeal c key (gcm_nonce dir_c2s c) p);
          doc w <- cdo (CWrite (enc_process_req (new_process_request (cs_id ses) c ct (co_reply o))));
          CRet (WrConn (fst w) (snd w))); doc rs <- CRet []; CRet (r :: rs)) :: l2; w_cs := s0 |} =
      Some {| w_progs := CDo (CWrite (octets_for C o ses key c p)) f :: l2; w_cs := s1 |} /\
      c_ctr s1 = c /\ c_sent s1 = c_sent cs /\ forall n, f (n, false) = CRet [WrConn n false]).
    { intros s0 l2 E1 E2. exists [0%nat; 0%nat; 0%nat]. cbn [w_run]. unfold w_move at 1. cbn [w_progs nth_error cdo cbind w_cs cexec put]. rewrite E1. fold c. rewrite N.mod_small by lia.
      destruct (N.eqb_spec c 0) as [Z|_]; [unfold c in Z; lia|]. cbn [cdo cbind]. unfold w_move at 1. cbn [w_progs nth_error w_cs cexec put].
      unfold w_move at 1. cbn [w_progs nth_error w_cs cexec put]. eexists _, _. split; [reflexivity|]. cbn. auto. }
    destruct (co_wto o).
    - destruct (X (c_tick cs) [write_loop C o ses qs] eq_refl eq_refl) as (l & s1 & f & R & Z). exists (0%nat :: l), s1, f. split; [|exact Z].
      cbn [w_run]. unfold w_move. cbn [w_progs nth_error cdo cbind w_cs cexec put]. rewrite (proj2 Wk). exact R.
    - apply X; reflexivity. }
  destruct A as (l & s1 & f & R1 & C1 & Q1 & F1).
  assert (Hlt1 : c_ctr s1 + lenN qs < two64) by (rewrite C1, Hqs; unfold c; lia).
  destruct (crun_loop C CE o ses key 1 L Hid K Wk qs s1 Hlt1) as (s2 & R2 & Q2).
  destruct (solo C CE [CDo (CWrite (octets_for C o ses key c p)) f] [] _ _ _ _ R2) as (k & R3). cbn [length app] in R3.
  set (log := numbered 1 (c_ctr s1 + 1) qs ++ [(0%nat, (c, p))]).
  assert (A : exists y, w_run C CE (l ++ repeat 1%nat k ++ [0%nat]) (several C o ses [[p]; qs] cs) = Some y /\
    w_progs y = map (fun ps => CRet (map written ps)) [[p]; qs] /\
    c_sent (w_cs y) = c_sent cs ++ map (fun e => (octets_for C o ses key (log_ctr e) (log_msg e), lenN (log_msg e) + 50)) log).
  { rewrite w_run_app, R1, w_run_app, R3. cbn [w_run]. unfold w_move. cbn [w_progs nth_error w_cs cexec].
    destruct (proj1 Wk (c_step s2) (octets_for C o ses key c p)) as [W1 W2]. destruct (ce_write CE (c_step s2) (octets_for C o ses key c p)) as [m err].
    cbn [fst snd] in W1, W2. subst err. rewrite N.min_r by exact W1. rewrite (octets_len C o ses key L Hid), F1. cbn [put].
    eexists. split; [reflexivity|]. split; [reflexivity|]. cbn [w_cs c_add_sent c_tick c_sent]. rewrite Q2, Q1. unfold log. rewrite map_app, <- app_assoc. reflexivity. }
  destruct A as (y & R & Done & Snt). exists (l ++ repeat 1%nat k ++ [0%nat]), y. split; [exact R|]. split; [exact Done|].
  unfold sent_by_client. rewrite Snt, skipn_app_exact, (wire_log C o ses key log L Hid).
  assert (Good : Forall (fun e => log_ctr e < two64 /\ lenN (log_msg e) + 16 <= max_message_size) log).
  { unfold log. apply Forall_app. split.
    - apply Forall_forall. intros e He. apply numbered_in in He. rewrite Forall_forall in Hp2. destruct He as [He1 He2]. split; [|apply Hp2, He2].
      rewrite C1, Hqs in He1. unfold c in He1. clear - He1 Hlt. lia.
    - repeat constructor; [change (c < two64); unfold c; lia|exact Hp1]. }
  unfold serve_conn. cbn [set_in s_in].
  destruct (serve_log C SE o ses key chost L Hid K Ws Np Hq Hh log
    (S (S (length (concat (map (fun e => octets_for C o ses key (log_ctr e) (log_msg e)) log))))) hist
    (set_in ss (concat (map (fun e => octets_for C o ses key (log_ctr e) (log_msg e)) log))) Good) as (ss' & R' & Hc).
  - split; [apply (wf_same ss); auto|exact Hkn].
  - exact Hhist.
  - reflexivity.
  - pose proof (octets_long C o ses key log L Hid). lia.
  - rewrite R'. split; [reflexivity|]. rewrite Hc, map_app. change (s_calls (set_in ss _)) with (s_calls ss). f_equal.
    unfold log at 2. rewrite map_app. cbn [map log_ctr fst snd].
    unfold c at 1. rewrite (overtaken_refused hist (c_ctr cs) (numbered 1 (c_ctr s1 + 1) qs) Hhist Hle 1%nat qs) by (try exact H64; try (rewrite C1; unfold c; f_equal; lia); lia).
    unfold log. rewrite <- H64, <- (numbered_len 1 qs (c_ctr s1 + 1)).
    assert (X : forall l : sent_log, kept (l ++ [(0%nat, (c, p))]) (repeat true (length l) ++ [false]) = l).
    { induction l0 as [|z l0 IHl]; cbn; [reflexivity|]. rewrite IHl. reflexivity. }
    rewrite X, map_map. cbn [snd]. apply numbered_msgs.
Qed.
