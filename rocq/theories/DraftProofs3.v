From Verif Require Import Bytes BytesProofs Parser ParserProofs Crypto Kdf Wire WireProofs WireSeq WireExtra Keys KeysProofs
  Replay SpecReplay ReplayProofs Server ServerSeq SpecServer ServerProofs ServerProps ServerProps2 ServerProps3
  Client ClientSeq SpecClient ClientProofs ClientProps SpecE2E E2EProofs ClientConc SpecClientConc SpecUsage.

(** ** Writes of concurrent clients *)
Section Overtake.
  Variables (C : Crypto) (W : world).

  (** Write from the addition on. *)
  Definition after_add (cl : nat) (key p : bytes) (c : N) : cprog (rd_result + wr_result) :=
    let ses := w_secret W (w_session W cl) in let o := w_opts W cl in
    cbind (if c =? 0 then CRet WrExhausted
           else doc _ <- cdo (CSetLast c);
                doc ct <- cdo (CSeal c key (gcm_nonce dir_c2s c) p);
                doc w <- cdo (CWrite (enc_process_req (new_process_request (cs_id ses) c ct (co_reply o))));
                CRet (WrConn (fst w) (snd w))) (fun r => CRet (inr r)).

  Definition req_of (cl : nat) (key p : bytes) (c : N) : bytes :=
    enc_request (RqProcess (cs_id (w_secret W (w_session W cl))) c (gcm_seal C key (gcm_nonce dir_c2s c) p) (co_reply (w_opts W cl))).

  Lemma upd_eq {A} (f : nat -> A) i v : upd f i v i = v.
  Proof. unfold upd. rewrite Nat.eqb_refl. reflexivity. Qed.
  Lemma upd_ne {A} (f : nat -> A) i v j : j <> i -> upd f i v j = f j.
  Proof. intros H. unfold upd. apply Nat.eqb_neq in H. rewrite H. reflexivity. Qed.

  (** Instance [i] may go on as [p] and the rest of the state is as in [k]. *)
  Record at_ (k k' : kst) (i cl : nat) (o : op) (p : cprog (rd_result + wr_result)) (l : list bytes) : Prop := {
    at_reach : kreachable C W k';
    at_inst : k_inst k' i = Some {| o_client := cl; o_op := o; o_prog := p |};
    at_other : forall j, j <> i -> k_inst k' j = k_inst k j;
    at_handed : handed k' = handed k ++ l }.

  Lemma at_do k k1 i cl o l R (e : ceff R) f r k2 : at_ k k1 i cl o (CDo e f) l -> kans C W cl k1 e r k2 ->
    k_inst k2 = k_inst k1 -> k_trace k2 = k_trace k1 ->
    exists k3, at_ k k3 i cl o (f r) (l ++ match kev_of W cl e r with KWrite b _ => [b] | _ => [] end) /\ k_ctr k3 = k_ctr k2.
  Proof.
    intros [H1 H2 H3 H4] A Hi Ht. exists (k_log (k_set_inst k2 i {| o_client := cl; o_op := o; o_prog := f r |}) i (kev_of W cl e r)).
    split; [|reflexivity]. constructor.
    - eapply KNext; [exact H1|]. exact (KStep C W k1 i _ R e f r k2 H2 eq_refl A).
    - cbn [k_log k_inst k_set_inst]. apply upd_eq.
    - intros j Hj. cbn [k_log k_inst k_set_inst]. rewrite upd_ne by exact Hj. rewrite Hi. auto.
    - unfold handed in *. cbn [k_log k_trace k_set_inst flat_map snd]. rewrite Ht.
      destruct (kev_of W cl e r); cbn [app]; rewrite ?H4, ?app_nil_r; try reflexivity.
      cbn [rev]. rewrite H4, <- app_assoc. reflexivity.
  Qed.

  Lemma begin_write k i cl p key : kreachable C W k -> k_inst k i = None ->
    client_gcm C (cs_secret (w_secret W (w_session W cl))) = Some key ->
    let c := (k_ctr k (w_session W cl) + 1) mod two64 in
    exists k', at_ k k' i cl (OpWrite p) (after_add cl key p c) [] /\ k_ctr k' (w_session W cl) = c.
  Proof.
    intros R Hi K c.
    set (k1 := k_set_inst k i {| o_client := cl; o_op := OpWrite p; o_prog := op_prog C W cl (OpWrite p) |}).
    assert (A1 : at_ k k1 i cl (OpWrite p) (op_prog C W cl (OpWrite p)) []).
    { constructor.
      - eapply KNext; [exact R|]. apply KSpawn, Hi.
      - apply upd_eq.
      - intros j Hj. apply upd_ne, Hj.
      - rewrite app_nil_r. reflexivity. }
    assert (A2 : exists k2, at_ k k2 i cl (OpWrite p) (CDo CAdd (after_add cl key p)) [] /\ k_ctr k2 = k_ctr k).
    { cbn [op_prog] in A1. unfold client_write in A1. rewrite K in A1. destruct (co_wto (w_opts W cl)).
      - cbn [cbind cdo] in A1. destruct (at_do _ _ _ _ _ _ _ _ _ true k1 A1 eq_refl eq_refl eq_refl) as (k2 & A2 & C2).
        exists k2. split; [exact A2|exact C2].
      - exists k1. split; [exact A1|reflexivity]. }
    destruct A2 as (k2 & A2 & C2).
    destruct (at_do _ _ _ _ _ _ _ _ _ c (k_set_ctr k2 (w_session W cl) c) A2) as (k3 & A3 & C3);
      [cbn [kans]; unfold c; rewrite C2; auto|reflexivity|reflexivity|].
    exists k3. split; [exact A3|]. rewrite C3. cbn [k_set_ctr k_ctr]. apply upd_eq.
  Qed.

  Lemma end_write k i cl p key c : kreachable C W k -> c <> 0 ->
    k_inst k i = Some {| o_client := cl; o_op := OpWrite p; o_prog := after_add cl key p c |} ->
    exists k' r, at_ k k' i cl (OpWrite p) (CRet (inr r)) [req_of cl key p c] /\ k_ctr k' = k_ctr k.
  Proof.
    intros R Hc Hi.
    assert (A0 : at_ k k i cl (OpWrite p) (after_add cl key p c) []).
    { constructor; auto. rewrite app_nil_r. reflexivity. }
    unfold after_add in A0. apply N.eqb_neq in Hc. rewrite Hc in A0. cbn [cbind cdo] in A0.
    destruct (at_do _ _ _ _ _ _ _ _ _ tt (k_set_last k cl c) A0 eq_refl eq_refl eq_refl) as (k1 & A1 & C1).
    destruct (at_do _ _ _ _ _ _ _ _ _ _ k1 A1 (conj eq_refl eq_refl) eq_refl eq_refl) as (k2 & A2 & C2).
    match type of A2 with at_ _ _ _ _ _ (CDo (CWrite ?b) _) _ =>
      destruct (at_do _ _ _ _ _ _ _ _ _ (lenN b, false) k2 A2 eq_refl eq_refl eq_refl) as (k3 & A3 & C3) end.
    exists k3. eexists. split; [exact A3|]. rewrite C3, C2, C1. reflexivity.
  Qed.

  Lemma whole_write k i cl p key : kreachable C W k -> k_inst k i = None ->
    client_gcm C (cs_secret (w_secret W (w_session W cl))) = Some key ->
    let c := (k_ctr k (w_session W cl) + 1) mod two64 in c <> 0 ->
    exists k', kreachable C W k' /\ (forall j, j <> i -> k_inst k' j = k_inst k j) /\
      handed k' = handed k ++ [req_of cl key p c] /\ k_ctr k' (w_session W cl) = c.
  Proof.
    intros R Hi K c Hc. destruct (begin_write k i cl p key R Hi K) as (k1 & [A1 A2 A3 A4] & C1).
    destruct (end_write k1 i cl p key c A1 Hc A2) as (k2 & r & [B1 B2 B3 B4] & C2).
    exists k2. split; [exact B1|]. split; [intros j Hj; rewrite (B3 j Hj); auto|]. split; [|rewrite C2; exact C1].
    rewrite B4, A4, app_nil_r. reflexivity.
  Qed.

  (** [n] Writes of client [cl], one after the other. *)
  Lemma many_writes cl p key : client_gcm C (cs_secret (w_secret W (w_session W cl))) = Some key ->
    forall n m k, kreachable C W k -> (forall j, (m <= j)%nat -> k_inst k j = None) ->
    k_ctr k (w_session W cl) + N.of_nat n < two64 ->
    exists k', kreachable C W k' /\ (forall j, (j < m)%nat -> k_inst k' j = k_inst k j) /\
      handed k' = handed k ++ map (req_of cl key p) (from (k_ctr k (w_session W cl) + 1) n) /\
      k_ctr k' (w_session W cl) = k_ctr k (w_session W cl) + N.of_nat n.
  Proof.
    intros K. induction n as [|n IH]; intros m k R Hm Hc.
    - exists k. cbn [from map]. rewrite app_nil_r. split; [exact R|]. split; [auto|]. split; [reflexivity|]. cbn; lia.
    - destruct (whole_write k m cl p key R (Hm m (le_n m)) K) as (k1 & R1 & I1 & H1 & C1).
      { rewrite N.mod_small by lia. lia. }
      rewrite N.mod_small in * by lia.
      destruct (IH (S m) k1 R1) as (k2 & R2 & I2 & H2 & C2).
      { intros j Hj. rewrite I1 by lia. apply Hm. lia. }
      { rewrite C1. lia. }
      exists k2. split; [exact R2|]. split; [intros j Hj; rewrite I2 by lia; apply I1; lia|]. split.
      + rewrite H2, H1, C1, <- app_assoc. reflexivity.
      + rewrite C2, C1. lia.
  Qed.

  Lemma overtaken cl1 cl2 p1 p2 key n : w_session W cl1 = w_session W cl2 ->
    client_gcm C (cs_secret (w_secret W (w_session W cl1))) = Some key -> N.of_nat n + 1 < two64 ->
    exists k, kreachable C W k /\
      handed k = map (req_of cl2 key p2) (from 2 n) ++ [req_of cl1 key p1 1].
  Proof.
    intros Hs K Hn. destruct (begin_write k0 0 cl1 p1 key (KInit C W) eq_refl K) as (k1 & [A1 A2 A3 A4] & C1).
    change ((k_ctr k0 (w_session W cl1) + 1) mod two64) with 1 in *.
    destruct (many_writes cl2 p2 key) with (n := n) (m := 1%nat) (k := k1) as (k2 & R2 & I2 & H2 & _).
    - rewrite <- Hs. exact K.
    - exact A1.
    - intros j Hj. rewrite A3 by lia. reflexivity.
    - rewrite <- Hs, C1. lia.
    - rewrite <- Hs, C1 in H2. change (1 + 1) with 2 in H2.
      destruct (end_write k2 0 cl1 p1 key 1 R2) as (k3 & r & [B1 _ _ B4] & _); [discriminate|rewrite I2 by lia; exact A2|].
      exists k3. split; [exact B1|]. rewrite B4, H2, A4, app_nil_r. reflexivity.
  Qed.
End Overtake.

(** A filter that saw 2, ..., n + 1 refuses 1 if n is 64 or more. *)
Lemma from_in a n c : In c (from a n) <-> a <= c < a + N.of_nat n.
Proof.
  revert a. induction n as [|n IH]; intros a; cbn [from In]; [lia|]. rewrite IH. lia.
Qed.
Lemma from_app a n : from a (S n) = from a n ++ [a + N.of_nat n].
Proof.
  revert a. induction n as [|n IH]; intros a; [cbn; f_equal; lia|].
  cbn [from app]. f_equal. change (a + 1 :: from (a + 1 + 1) n) with (from (a + 1) (S n)). rewrite IH. f_equal. f_equal. lia.
Qed.
Lemma from_increasing : forall n a lo, lo < a -> increasing lo (from a n).
Proof. induction n as [|n IH]; intros a lo H; cbn [from increasing]; auto. split; [exact H|]. apply IH. lia. Qed.
Lemma accepted_all cs : SpecReplay.accepted cs (repeat true (length cs)) = cs.
Proof. induction cs as [|c cs IH]; cbn [SpecReplay.accepted repeat length app]; [reflexivity|]. rewrite IH. reflexivity. Qed.
Lemma overtaken_refused n : (64 <= n)%nat -> N.of_nat n + 2 < two64 -> refused_after (from 2 n) 1.
Proof.
  intros Hn Hb. unfold refused_after. cbv zeta. rewrite increasing_accepted.
  - rewrite accepted_all. right; right.
    assert (In (N.of_nat n + 1) (from 2 n)) as H by (apply from_in; lia). apply highest_in in H. lia.
  - apply from_increasing. lia.
  - apply Forall_forall. intros c Hc. apply from_in in Hc. lia.
Qed.

(** ** Any number of sessions *)
Lemma many_sessions C (L : CryptoLaws C) E host pub : e_host E = Some host -> (forall i, e_quit E i = false) -> length pub = 32%nat ->
  (forall i, exists sk, e_gen E i = Some sk /\ x_dh C sk pub <> None) ->
  (forall i, e_store E i = true) -> (forall i h m, exists sig, e_sign E i h m = KOk sig) -> writes_all E ->
  forall all, Forall (fun id => length id = 16%nat) all ->
  (forall i j, In i all -> In j all -> ~ collision C host i host j) ->
  forall ids s, wf s -> incl ids all ->
  let '(r, s') := one_by_one C E (map (fun id => RqSetup id pub) ids) s in
  r = Some true /\ (forall id, In id ids -> known C s' host id <> None) /\
  (forall id, In id all -> known C s host id <> None -> known C s' host id <> None).
Proof.
  intros Hh Hq Hpub Hg Hst Hsg Hw all Hl Hcol. induction ids as [|id ids IH]; intros s Hwf Hincl; cbn [map one_by_one].
  - split; [reflexivity|]. split; [intros id []|auto].
  - assert (Hia : In id all) by (apply Hincl; left; reflexivity). rewrite Forall_forall in Hl. pose proof (Hl id Hia) as Hid.
    assert (Hok : request_ok (RqSetup id pub)) by (split; auto).
    set (s0 := set_in s (enc_request (RqSetup id pub))).
    assert (Hwf0 : wf s0) by (apply (wf_same s); auto).
    assert (Hin0 : s_in s0 = enc_request (RqSetup id pub) ++ []) by (unfold s0; cbn [set_in s_in]; rewrite app_nil_r; reflexivity).
    pose proof (setup_spec C E s0 id pub [] L Hok Hin0 (Hq _) Hwf0) as SP.
    pose proof (WF_conn C E s0 Hwf0) as WF'.
    destruct (srun C E (conn_body C) s0) as [r s1]. cbn [snd] in WF'.
    destruct SP as (_ & _ & [(h & i & sk & shared & j & sig & Eh & _ & _ & _ & [Kn Ko] & _ & Rs)|
      [(_ & (c & t & _ & Hreason) & _)|(h & i & sk & shared & j & Eh & Eg & Ed & _ & Hs)]]).
    + rewrite Hh in Eh. injection Eh as <-. destruct (Rs Hw) as [_ ->].
      specialize (IH s1 WF' (fun x H => Hincl x (or_intror H))). destruct (one_by_one C E (map (fun id => RqSetup id pub) ids) s1) as [r s2].
      destruct IH as (-> & I1 & I2). split; [reflexivity|]. split.
      * intros x [<-|Hx]; [|auto]. apply I2; [exact Hia|]. congruence.
      * intros x Hx Hkx. apply I2; [exact Hx|]. destruct (list_eq_dec Byte.byte_eq_dec x id) as [->|Hne]; [congruence|].
        destruct (Ko host x (Hl x Hx)) as [-> | Hc]; [congruence|exact Hkx|]. exfalso. exact (Hcol x id Hx Hia Hc).
    + exfalso. destruct Hreason as [[-> [[i Hx]|(i & sk & Hx & Hd)]]|[-> [Hx|[i Hx]]]].
      * destruct (Hg i) as (k & Hk & _). congruence.
      * destruct (Hg i) as (k & Hk & Hd'). congruence.
      * congruence.
      * rewrite Hst in Hx. discriminate.
    + exfalso. cbv zeta in Hs. set (tr := be_enc 4 44 ++ _) in Hs. destruct (Hsg j SHA512 tr) as (sig & Hs').
      destruct Hs as [[Hs _]|[Hs _]]; congruence.
Qed.

Lemma any_number_of_sessions C (L : CryptoLaws C) E host pub ids s :
  e_host E = Some host -> (forall i, e_quit E i = false) -> length pub = 32%nat ->
  (forall i, exists sk, e_gen E i = Some sk /\ x_dh C sk pub <> None) ->
  (forall i, e_store E i = true) -> (forall i h m, exists sig, e_sign E i h m = KOk sig) -> writes_all E ->
  wf s -> Forall (fun id => length id = 16%nat) ids ->
  (forall i j, In i ids -> In j ids -> ~ collision C host i host j) ->
  let '(r, s') := one_by_one C E (map (fun id => RqSetup id pub) ids) s in
  r = Some true /\ forall id, In id ids -> known C s' host id <> None.
Proof.
  intros Hh Hq Hpub Hg Hst Hsg Hw Hwf Hl Hcol.
  pose proof (many_sessions C L E host pub Hh Hq Hpub Hg Hst Hsg Hw ids Hl Hcol ids s Hwf (incl_refl ids)) as X.
  destruct (one_by_one C E (map (fun id => RqSetup id pub) ids) s) as [r s']. tauto.
Qed.
