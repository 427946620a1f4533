From Coq Require Import String Permutation Lia.
From Verif Require Import Bytes BytesProofs Kdf Registry ChatUser SpecChat.

Lemma in_tab_del t n x : In x (tab_del t n) <-> In x t /\ fst x <> n.
Proof.
  unfold tab_del. rewrite filter_In. destruct (bytes_eqb_spec (fst x) n); cbn; split; intros [A B]; split; auto; congruence.
Qed.

Lemma del_names t n : NoDup (map fst t) -> NoDup (map fst (tab_del t n)).
Proof.
  induction t as [|[m c] t IH]; cbn; intros H; [constructor|]. inversion H as [|a l Hn Hd]; subst.
  destruct (bytes_eqb m n); cbn; [apply IH, Hd|]. constructor; [|apply IH, Hd].
  intros Hin. apply Hn. apply in_map_iff in Hin. destruct Hin as (x & E & Hx). apply in_tab_del in Hx.
  rewrite <- E. apply in_map, Hx.
Qed.

Lemma del_not_in t n : ~ In n (map fst (tab_del t n)).
Proof. intros H. apply in_map_iff in H. destruct H as (x & E & Hx). apply in_tab_del in Hx. tauto. Qed.

Lemma get_iff t n c : NoDup (map fst t) -> (tab_get t n = Some c <-> In (n, c) t).
Proof.
  unfold tab_get. induction t as [|[m d] t IH]; intros Hnd; cbn; [split; [discriminate|contradiction]|].
  inversion Hnd as [|a l Hn Hd]; subst. destruct (bytes_eqb_spec m n) as [->|E]; cbn.
  - split.
    + intros H. injection H as ->. left. reflexivity.
    + intros [H|H]; [congruence|]. exfalso. apply Hn. apply (in_map fst) in H. exact H.
  - rewrite IH by exact Hd. split; [auto|]. intros [H|H]; [congruence|exact H].
Qed.

Lemma get_none t n : tab_get t n = None <-> ~ In n (map fst t).
Proof.
  unfold tab_get. induction t as [|[m d] t IH]; cbn; [split; [intros _ []|reflexivity]|].
  destruct (bytes_eqb_spec m n) as [->|E]; cbn.
  - split; [discriminate|]. intros H. exfalso. apply H. left. reflexivity.
  - rewrite IH. split; [intros H [A|A]; auto|auto].
Qed.

Definition conns (s : ust) : list (bytes * option nat) := u_tab s ++ u_pend s.

Lemma in_closed l c x : In x (closed l c) <-> In x l /\ x <> c.
Proof.
  unfold closed. rewrite filter_In. destruct (Nat.eqb_spec x c); cbn; split; intros [A B]; split; auto; congruence.
Qed.

(** The connections of a list of entries. *)
Definition ids (l : list (bytes * option nat)) : list nat :=
  flat_map (fun x => match snd x with Some c => [c] | None => [] end) l.

Lemma in_ids l c : In c (ids l) <-> exists n, In (n, Some c) l.
Proof.
  unfold ids. rewrite in_flat_map. split.
  - intros ([n d] & H1 & H2). cbn in H2. destruct d as [d|]; [|destruct H2]. destruct H2 as [->|[]]. eauto.
  - intros [n H]. exists (n, Some c). split; [exact H|]. left. reflexivity.
Qed.

Lemma ids_app a b : ids (a ++ b) = ids a ++ ids b.
Proof. apply flat_map_app. Qed.

Lemma ids_perm a b : Permutation a b -> Permutation (ids a) (ids b).
Proof. apply Permutation_flat_map. Qed.

Lemma perm_del t n c : NoDup (map fst t) -> In (n, c) t -> Permutation t ((n, c) :: tab_del t n).
Proof.
  induction t as [|[m d] t IH]; cbn; intros Hnd Hin; [contradiction|].
  inversion Hnd as [|a l Hn Hd]; subst. destruct (bytes_eqb_spec m n) as [->|E]; cbn.
  - destruct Hin as [Hin|Hin].
    + injection Hin as ->. apply perm_skip. clear -Hn. induction t as [|[m d] t IH]; cbn; [apply Permutation_refl|].
      cbn in Hn. destruct (bytes_eqb_spec m n) as [->|E]; [tauto|]. cbn. apply perm_skip, IH. tauto.
    + exfalso. apply Hn. apply (in_map fst) in Hin. exact Hin.
  - destruct Hin as [Hin|Hin]; [congruence|].
    eapply Permutation_trans; [apply perm_skip, IH; auto|]. apply perm_swap.
Qed.

Lemma del_ids_nodup t n r : NoDup (map fst t) -> NoDup (ids (t ++ r)) -> NoDup (ids (tab_del t n ++ r)).
Proof.
  intros Hn Hd. destruct (tab_get t n) as [c|] eqn:E.
  - apply (get_iff t n c Hn) in E. pose proof (perm_del t n c Hn E) as P.
    assert (P2 : Permutation (t ++ r) ((n, c) :: tab_del t n ++ r)).
    { apply (Permutation_app_tail r) in P. exact P. }
    apply ids_perm in P2. apply (Permutation_NoDup P2) in Hd. cbn in Hd. destruct c as [c|]; [|exact Hd].
    inversion Hd; assumption.
  - apply get_none in E. assert (tab_del t n = t) as ->; [|exact Hd].
    clear -E. induction t as [|[m d] t IH]; cbn; [reflexivity|]. cbn in E.
    destruct (bytes_eqb_spec m n) as [->|]; [tauto|]. cbn. f_equal. apply IH. tauto.
Qed.

Record uinv (t : list uev) (s : ust) : Prop := {
  i_names : NoDup (map fst (u_tab s));
  i_latest : forall n c, latest t n = Some c <-> In (n, c) (u_tab s);
  i_one : NoDup (ids (u_tab s ++ u_pend s));
  i_dialled : forall n c, In (n, Some c) (u_tab s ++ u_pend s) -> exists net, In (UDial n net c) t;
  i_old : forall n net c, In (UDial n net c) t -> (c < u_next s)%nat;
  i_once : forall n net n' net' c, In (UDial n net c) t -> In (UDial n' net' c) t -> n' = n /\ net' = net;
  i_shut : forall n c, In (UClosed n c) t -> (c < u_next s)%nat /\ ~ In c (ids (u_tab s ++ u_pend s));
  i_open : forall c, In c (u_open s) <-> (exists n net, In (UDial n net c) t) /\ forall n, ~ In (UClosed n c) t;
  i_nil : known_networks t -> u_dead s = false /\ u_held s = false /\ forall n, ~ In (n, None) (u_tab s ++ u_pend s) }.

Lemma uinv0 : uinv [] ust0.
Proof.
  constructor; cbn; try contradiction; try (constructor; fail).
  - intros n c. split; [discriminate|contradiction].
  - intros c. split; [contradiction|]. intros [(n & net & []) _].
  - auto.
Qed.

Lemma known_tail e t : known_networks (e :: t) -> known_networks t.
Proof. intros H n net Hin. apply (H n net). right. exact Hin. Qed.

(** An event that changes nothing but the log, and says nothing about connections. *)
Lemma uinv_idle t s e : uinv t s ->
  (forall n c, latest (e :: t) n = Some c <-> latest t n = Some c) ->
  match e with UFail _ | UGone _ | USend _ => True | _ => False end -> uinv (e :: t) s.
Proof.
  intros [A1 A2 A3 A4 A5 A5b A6 A7 A8] Hl He.
  assert (Hin : forall x, In x (e :: t) -> match x with UDial _ _ _ | UClosed _ _ => In x t | _ => True end).
  { intros x [<-|Hx]; [destruct e; auto; contradiction|destruct x; auto]. }
  constructor; auto.
  - intros n c. rewrite Hl. apply A2.
  - intros n c Hc. destruct (A4 n c Hc) as [net Hd]. exists net. right. exact Hd.
  - intros n net c Hd. apply (A5 n net c). apply (Hin _ Hd).
  - intros n net n' net' c Hd Hd'. apply (A5b n net n' net' c); [apply (Hin _ Hd)|apply (Hin _ Hd')].
  - intros n c Hd. apply (A6 n c). apply (Hin _ Hd).
  - intros c. rewrite A7. split; intros [(n & net & B1) B2]; (split; [exists n, net|]).
    + right. exact B1.
    + intros m Hm. apply (B2 m). apply (Hin _ Hm).
    + apply (Hin _ B1).
    + intros m Hm. apply (B2 m). right. exact Hm.
  - intros Hk. apply A8. eapply known_tail; eauto.
Qed.

Lemma uinv_step t s e s' : uinv t s -> ustep s e s' -> uinv (e :: t) s'.
Proof.
  intros U H. pose proof U as [A1 A2 A3 A4 A5 A5b A6 A7 A8].
  destruct H as [s n net Hd Hn|s n net Hd Hn|s n net Hd H1 H2|s n c p1 p2 Hd Hh Hp|s n c Hd Hh Hg|s n Hd Hh Hg|s n Hd Hh Hg|s l Hd Hh Hp Hne|s n Hd Hh Hin].
  - constructor; cbn -[tab_put tab_del]; auto.
    + rewrite ids_app. cbn. eapply Permutation_NoDup; [apply Permutation_middle|]. rewrite <- ids_app.
      constructor; [|exact A3]. intros Hin. apply in_ids in Hin. destruct Hin as [m Hm].
      destruct (A4 m _ Hm) as [net' Hd']. apply A5 in Hd'. lia.
    + intros m c Hm. apply in_app_iff in Hm. cbn in Hm. destruct Hm as [Hm|[E|Hm]].
      * destruct (A4 m c ltac:(apply in_app_iff; auto)) as [net' Hd']. exists net'. right. exact Hd'.
      * injection E as -> ->. exists net. left. reflexivity.
      * destruct (A4 m c ltac:(apply in_app_iff; auto)) as [net' Hd']. exists net'. right. exact Hd'.
    + intros m net' c [E|Hm]; [injection E as E1 E2 E3; lia|]. apply A5 in Hm. lia.
    + intros m net1 m' net2 c [E|Hm] [E'|Hm'].
      * injection E as E1 E2 E3. injection E' as F1 F2 F3. split; congruence.
      * injection E as E1 E2 E3. apply A5 in Hm'. lia.
      * injection E' as E1 E2 E3. apply A5 in Hm. lia.
      * eapply A5b; eauto.
    + intros m c [E|Hm]; [discriminate E|]. destruct (A6 m c Hm) as [B1 B2]. split; [lia|].
      rewrite ids_app. cbn. intros Hin. apply in_app_iff in Hin. cbn in Hin. rewrite ids_app in B2.
      destruct Hin as [Hin|[Hin|Hin]]; [|lia|]; apply B2, in_app_iff; auto.
    + intros c. split.
      * intros [<-|Hc].
        -- split; [exists n, net; left; reflexivity|]. intros m [E|Hm]; [discriminate E|].
           destruct (A6 m _ Hm). lia.
        -- apply A7 in Hc. destruct Hc as [(m & net' & B1) B2]. split; [exists m, net'; right; exact B1|].
           intros m' [E|Hm]; [discriminate E|apply (B2 m' Hm)].
      * intros [(m & net' & [E|B1]) B2]; [injection E as _ _ ->; left; reflexivity|right].
        apply A7. split; [eauto|]. intros m' Hm. apply (B2 m'). right. exact Hm.
    + intros Hk. destruct (A8 (known_tail _ _ Hk)) as (B1 & B2 & B3). split; [reflexivity|]. split; [exact B2|].
      intros m Hm. apply in_app_iff in Hm. cbn in Hm. apply (B3 m). apply in_app_iff.
      destruct Hm as [Hm|[E|Hm]]; [auto|discriminate E|auto].
  - apply uinv_idle; cbn; auto. reflexivity.
  - constructor; cbn -[tab_put tab_del]; auto.
    + rewrite ids_app in *. exact A3.
    + intros m c Hm. apply in_app_iff in Hm. cbn in Hm.
      destruct (A4 m c) as [net' Hd']; [|exists net'; right; exact Hd'].
      apply in_app_iff. destruct Hm as [Hm|[E|Hm]]; [auto|discriminate E|auto].
    + intros m net' c [E|Hm]; [discriminate E|]. apply A5 in Hm. lia.
    + intros m net1 m' net2 c [E|Hm] [E'|Hm']; try discriminate. eapply A5b; eauto.
    + intros m c [E|Hm]; [discriminate E|]. destruct (A6 m c Hm) as [B1 B2]. split; [lia|].
      rewrite ids_app in *. exact B2.
    + intros c. rewrite A7. split; intros [(m & net' & B1) B2]; (split; [exists m, net'|]).
      * right. exact B1.
      * intros m' [E|Hm]; [discriminate E|apply (B2 m' Hm)].
      * destruct B1 as [E|B1]; [discriminate E|exact B1].
      * intros m' Hm. apply (B2 m'). right. exact Hm.
    + intros Hk. exfalso. apply (Hk n net). left. reflexivity.
  - rewrite Hp in *.
    assert (P : Permutation (u_tab s ++ p1 ++ (n, c) :: p2) ((n, c) :: u_tab s ++ p1 ++ p2)).
    { rewrite !app_assoc. symmetry. apply Permutation_middle. }
    assert (Hsub : forall x, In x (tab_put (u_tab s) n c ++ p1 ++ p2) -> In x (u_tab s ++ p1 ++ (n, c) :: p2)).
    { intros x Hx. apply (Permutation_in x (Permutation_sym P)). apply in_app_iff in Hx.
      destruct Hx as [[<-|Hx]|Hx]; [left; reflexivity|right|right]; apply in_app_iff; [left|right; exact Hx].
      apply in_tab_del in Hx. apply Hx. }
    assert (Hids : forall x, In x (ids (tab_put (u_tab s) n c ++ p1 ++ p2)) -> In x (ids (u_tab s ++ p1 ++ (n, c) :: p2))).
    { intros x Hx. apply in_ids in Hx. destruct Hx as [m Hm]. apply in_ids. exists m. apply Hsub, Hm. }
    constructor; cbn [u_tab u_open u_pend u_next u_held u_dead].
    + cbn -[tab_del]. constructor; [apply del_not_in|apply del_names, A1].
    + intros m d. cbn [latest]. unfold tab_put. cbn [In]. rewrite in_tab_del. cbn [fst].
      destruct (bytes_eqb_spec n m) as [->|E].
      * split; [intros H; injection H as ->; auto|]. intros [H|[_ H]]; [congruence|]. congruence.
      * rewrite A2. split; [intros H; right; split; auto|]. intros [H|[H _]]; [congruence|exact H].
    + assert (N1 : NoDup (ids ((n, c) :: u_tab s ++ p1 ++ p2))) by (eapply Permutation_NoDup; [apply ids_perm, P|exact A3]).
      unfold tab_put. cbn [app].
      destruct c as [c|]; cbn in N1 |- *.
      * inversion N1 as [|x l Hx Hnd]; subst. constructor; [|apply del_ids_nodup; auto].
        intros Hin. apply Hx. apply in_ids in Hin. destruct Hin as [m Hm]. apply in_ids. exists m.
        apply in_app_iff in Hm. apply in_app_iff. destruct Hm as [Hm|Hm]; [left|right; exact Hm].
        apply in_tab_del in Hm. apply Hm.
      * apply del_ids_nodup; auto.
    + intros m d Hm. destruct (A4 m d (Hsub _ Hm)) as [net' Hd']. exists net'. right. exact Hd'.
    + intros m net' d [E|Hm]; [discriminate E|]. eapply A5; eauto.
    + intros m net1 m' net2 d [E|Hm] [E'|Hm']; try discriminate. eapply A5b; eauto.
    + intros m d [E|Hm]; [discriminate E|]. destruct (A6 m d Hm) as [B1 B2]. split; [exact B1|].
      intros Hin. apply B2, Hids, Hin.
    + intros d. rewrite A7. split; intros [(m & net' & B1) B2]; (split; [exists m, net'|]).
      * right. exact B1.
      * intros m' [E|Hm]; [discriminate E|apply (B2 m' Hm)].
      * destruct B1 as [E|B1]; [discriminate E|exact B1].
      * intros m' Hm. apply (B2 m'). right. exact Hm.
    + intros Hk. destruct (A8 (known_tail _ _ Hk)) as (B1 & B2 & B3). split; [reflexivity|]. split; [reflexivity|].
      intros m Hm. apply (B3 m), Hsub, Hm.
  - pose proof (proj1 (get_iff _ n (Some c) A1) Hg) as Hin.
    pose proof (perm_del _ n (Some c) A1 Hin) as P.
    assert (N1 : NoDup (ids ((n, Some c) :: tab_del (u_tab s) n ++ u_pend s))).
    { eapply Permutation_NoDup; [|exact A3]. apply ids_perm. apply (Permutation_app_tail (u_pend s)) in P. exact P. }
    cbn -[tab_del] in N1. inversion N1 as [|x l Hx Hnd]; subst.
    assert (Hsub : forall x, In x (tab_del (u_tab s) n ++ u_pend s) -> In x (u_tab s ++ u_pend s)).
    { intros x Hy. apply in_app_iff in Hy. apply in_app_iff. destruct Hy as [Hy|Hy]; [left|right; exact Hy].
      apply in_tab_del in Hy. apply Hy. }
    destruct (A4 n c ltac:(apply in_app_iff; auto)) as [net0 Hd0].
    constructor; cbn [u_tab u_open u_pend u_next u_held u_dead].
    + apply del_names, A1.
    + intros m d. cbn [latest]. rewrite in_tab_del. cbn [fst].
      destruct (bytes_eqb_spec n m) as [->|E].
      * split; [discriminate|]. intros [_ H]; congruence.
      * rewrite A2. split; [intros H; split; auto|]. intros [H _]. exact H.
    + exact Hnd.
    + intros m d Hm. destruct (A4 m d (Hsub _ Hm)) as [net' Hd']. exists net'. right. exact Hd'.
    + intros m net' d [E|Hm]; [discriminate E|]. eapply A5; eauto.
    + intros m net1 m' net2 d [E|Hm] [E'|Hm']; try discriminate. eapply A5b; eauto.
    + intros m d [E|Hm].
      * injection E as <- <-. split; [eapply A5; eauto|exact Hx].
      * destruct (A6 m d Hm) as [B1 B2]. split; [exact B1|].
        intros Hi. apply B2. apply in_ids in Hi. destruct Hi as [m' Hm']. apply in_ids. exists m'. apply Hsub, Hm'.
    + intros d. rewrite in_closed, A7. split.
      * intros [[(m & net' & B1) B2] Hdc]. split; [exists m, net'; right; exact B1|].
        intros m' [E|Hm]; [congruence|apply (B2 m' Hm)].
      * intros [(m & net' & [E|B1]) B2]; [discriminate E|]. split.
        -- split; [eauto|]. intros m' Hm. apply (B2 m'). right. exact Hm.
        -- intros ->. apply (B2 n). left. reflexivity.
    + intros Hk. destruct (A8 (known_tail _ _ Hk)) as (B1 & B2 & B3). split; [reflexivity|]. split; [reflexivity|].
      intros m Hm. apply (B3 m), Hsub, Hm.
  - apply uinv_idle; [exact U| |exact I]. intros m c. cbn [latest]. destruct (bytes_eqb_spec n m) as [->|]; [|reflexivity].
    split; [discriminate|]. intros H. apply A2 in H. apply get_none in Hg. exfalso. apply Hg.
    apply (in_map fst) in H. exact H.
  - constructor; cbn [u_tab u_open u_pend u_next u_held u_dead]; auto.
    + intros m d Hm. destruct (A4 m d Hm) as [net' Hd']. exists net'. right. exact Hd'.
    + intros m net' d [E|Hm]; [discriminate E|]. eapply A5; eauto.
    + intros m net1 m' net2 d [E|Hm] [E'|Hm']; try discriminate. eapply A5b; eauto.
    + intros m d [E|Hm]; [discriminate E|]. eapply A6; eauto.
    + intros d. rewrite A7. split; intros [(m & net' & B1) B2]; (split; [exists m, net'|]).
      * right. exact B1.
      * intros m' [E|Hm]; [discriminate E|apply (B2 m' Hm)].
      * destruct B1 as [E|B1]; [discriminate E|exact B1].
      * intros m' Hm. apply (B2 m'). right. exact Hm.
    + intros Hk. exfalso. destruct (A8 (known_tail _ _ Hk)) as (_ & _ & B3). apply (B3 n). apply in_app_iff. left.
      apply (get_iff _ n None A1), Hg.
  - apply uinv_idle; cbn; auto. reflexivity.
  - constructor; cbn [u_tab u_open u_pend u_next u_held u_dead]; auto.
    + intros m d Hm. destruct (A4 m d Hm) as [net' Hd']. exists net'. right. exact Hd'.
    + intros m net' d [E|Hm]; [discriminate E|]. eapply A5; eauto.
    + intros m net1 m' net2 d [E|Hm] [E'|Hm']; try discriminate. eapply A5b; eauto.
    + intros m d [E|Hm]; [discriminate E|]. eapply A6; eauto.
    + intros d. rewrite A7. split; intros [(m & net' & B1) B2]; (split; [exists m, net'|]).
      * right. exact B1.
      * intros m' [E|Hm]; [discriminate E|apply (B2 m' Hm)].
      * destruct B1 as [E|B1]; [discriminate E|exact B1].
      * intros m' Hm. apply (B2 m'). right. exact Hm.
    + intros Hk. exfalso. destruct (A8 (known_tail _ _ Hk)) as (_ & _ & B3). apply (B3 n). apply in_app_iff. left.
      exact Hin.
Qed.

Lemma uinv_reach t s : ureach t s -> uinv t s.
Proof. induction 1; [apply uinv0|eapply uinv_step; eauto]. Qed.

(** ** Messages *)
Theorem to_everyone t s l : ureach (USend l :: t) s ->
  NoDup (map fst l) /\
  (forall n c, In (n, c) l <-> latest t n = Some (Some c)) /\
  (forall n, latest t n <> Some None) /\
  forall n c, In (n, c) l -> (exists net, In (UDial n net c) t) /\ forall m, ~ In (UClosed m c) t.
Proof.
  intros H. inversion H as [|t0 s0 e s1 H0 Hs]; subst. apply uinv_reach in H0.
  inversion Hs as [| | | | | | |s1 l1 Hd Hh Hp Hne|]; subst. destruct H0 as [A1 A2 A3 A4 A5 A5b A6 A7 A8].
  assert (Hiff : forall n c, In (n, c) l <-> In (n, Some c) (u_tab s)).
  { intros n c. split.
    - intros Hin. apply (Permutation_in _ (Permutation_sym Hp)). apply in_map_iff. exists (n, c). auto.
    - intros Hin. apply (Permutation_in _ Hp) in Hin. apply in_map_iff in Hin. destruct Hin as ([m d] & E & Hin).
      injection E as -> ->. exact Hin. }
  split; [|split; [|split]].
  - assert (E : map fst (map (fun x : bytes * nat => (fst x, Some (snd x))) l) = map fst l) by (rewrite map_map; reflexivity).
    rewrite <- E. eapply Permutation_NoDup; [apply Permutation_map, Hp|exact A1].
  - intros n c. rewrite Hiff, A2. reflexivity.
  - intros n Hn. apply A2 in Hn. apply (Permutation_in _ Hp) in Hn. apply in_map_iff in Hn.
    destruct Hn as (x & E & _). discriminate E.
  - intros n c Hin. apply Hiff in Hin.
    split; [apply A4, in_app_iff; auto|]. intros m Hm. destruct (A6 m c Hm) as [_ B]. apply B.
    rewrite ids_app. apply in_app_iff. left. apply in_ids. eauto.
Qed.

(** ** Unknown networks *)
Theorem stays_alive t s : ureach t s -> known_networks t -> u_dead s = false /\ u_held s = false.
Proof. intros H Hk. destruct (i_nil _ _ (uinv_reach _ _ H) Hk) as (A & B & _). auto. Qed.

Lemma held_for_ever s t s' : usteps s t s' -> u_held s = true ->
  u_held s' = true /\ forall e, In e t -> match e with UDial _ _ _ | UFail _ | UOther _ _ => True | _ => False end.
Proof.
  induction 1 as [s|s t s1 e s2 H IH Hs]; intros Hh; [split; [exact Hh|contradiction]|].
  destruct (IH Hh) as [I1 I2]. clear IH.
  inversion Hs; subst; cbn; try congruence; (split; [exact I1|intros x [<-|Hx]; [exact I|apply I2, Hx]]).
Qed.

(** ** Connections that are left behind *)
Lemma once_tail e t : join_once (e :: t) -> join_once t.
Proof. intros H t2 n c t1 E. apply (H (e :: t2) n c t1). rewrite E. reflexivity. Qed.

Theorem no_leak t s : ureach t s -> join_once t -> forall c, In c (u_open s) ->
  exists n, In (n, Some c) (u_tab s ++ u_pend s).
Proof.
  intros H. induction H as [|t s e s' H IH Hs]; intros Hj c Hc; [destruct Hc|].
  specialize (IH (once_tail _ _ Hj)). pose proof (uinv_reach _ _ H) as U.
  destruct Hs as [s n net Hd Hn|s n net Hd Hn|s n net Hd H1 H2|s n d p1 p2 Hd Hh Hp|s n d Hd Hh Hg|s n Hd Hh Hg|s n Hd Hh Hg|s l Hd Hh Hp Hne|s n Hd Hh Hin];
    cbn -[tab_put tab_del] in *; auto.
  - destruct Hc as [<-|Hc]; [exists n; apply in_app_iff; right; left; reflexivity|].
    destruct (IH c Hc) as [m Hm]. exists m. apply in_app_iff in Hm. apply in_app_iff. cbn. tauto.
  - destruct (IH c Hc) as [m Hm]. exists m. apply in_app_iff in Hm. apply in_app_iff. cbn. tauto.
  - destruct (IH c Hc) as [m Hm]. exists m. rewrite Hp in Hm.
    pose proof (Hj [] n d t eq_refl) as Hnone.
    apply in_app_iff in Hm. rewrite in_app_iff in Hm. cbn in Hm.
    apply in_app_iff. unfold tab_put. cbn -[tab_del]. rewrite in_tab_del, in_app_iff. cbn.
    destruct Hm as [Hm|[Hm|[Hm|Hm]]]; auto. left. right. split; [exact Hm|]. intros ->.
    apply (i_latest _ _ U) in Hm. congruence.
  - apply in_closed in Hc. destruct Hc as [Hc Hcd]. destruct (IH c Hc) as [m Hm]. exists m.
    apply in_app_iff in Hm. apply in_app_iff. rewrite in_tab_del. cbn. destruct Hm as [Hm|Hm]; [|auto].
    left. split; [exact Hm|]. intros ->. apply (get_iff _ n (Some c) (i_names _ _ U)) in Hm. congruence.
Qed.

(** ** URLs *)
Lemma plain_parts b : plain_byte b = true ->
  is_ctl b = false /\ (b2n b =? 35) = false /\ (b2n b =? 37) = false /\ (b2n b =? 47) = false /\ (b2n b =? 63) = false.
Proof.
  unfold plain_byte, is_ctl. rewrite N.ltb_antisym.
  destruct (32 <=? b2n b), (b2n b =? 127), (b2n b =? 35), (b2n b =? 37), (b2n b =? 47), (b2n b =? 63); cbn; intros H; try discriminate H; auto.
Qed.

Lemma plain_url n : forallb plain_byte n = true ->
  cut 35 n = n /\ cut 63 n = n /\ after_cut 35 n = [] /\ existsb is_ctl n = false /\ pct_dec n = Some n /\
  forall acc, segs acc n = [List.rev acc ++ n].
Proof.
  induction n as [|b n IH]; cbn.
  - intros _. repeat split. intros acc. rewrite app_nil_r. reflexivity.
  - intros H. apply Bool.andb_true_iff in H. destruct H as [Hb Hn]. destruct (IH Hn) as (A1 & A2 & A3 & A4 & A5 & A6).
    destruct (plain_parts b Hb) as (B1 & B2 & B3 & B4 & B5).
    rewrite B1, B2, B3, B4, B5, A1, A2, A3, A4, A5. repeat split.
    intros acc. rewrite A6. cbn. rewrite <- app_assoc. reflexivity.
Qed.

Theorem leaves_itself n : plain_name n ->
  exists path, unregister_path n = Some path /\ delete_name path = Some n.
Proof.
  intros (Hp & Hd & Hdd). destruct (plain_url n Hp) as (A1 & A2 & A3 & A4 & A5 & A6).
  exists (str "/users/" ++ n). unfold unregister_path. rewrite A1, A3, A4, A2, A5, A6. cbn [pct_dec clean List.rev app].
  unfold good_seg. destruct (bytes_eqb_spec n (str ".")); [contradiction|].
  destruct (bytes_eqb_spec n (str "..")); [contradiction|]. cbn [negb andb orb]. split; [reflexivity|].
  unfold delete_name. rewrite lenN_app. change (lenN (str "/users/")) with 7.
  destruct (N.leb_spec 7 (7 + lenN n)); [|lia]. f_equal. apply (dropN_app (str "/users/") n 7 eq_refl).
Qed.

(** ** Going on *)
Theorem goes_on t s : ureach t s -> known_networks t ->
  (forall n net, net = net_tcp \/ net = net_udp -> exists c s1 s2,
     ustep s (UDial n net c) s1 /\ ustep s1 (UStore n (Some c)) s2) /\
  (forall n, latest t n = None -> exists s', ustep s (UGone n) s') /\
  (forall n c, latest t n = Some (Some c) -> exists s', ustep s (UClosed n c) s') /\
  (forall n, latest t n <> None -> exists l c s', ustep s (USend l) s' /\ In (n, c) l).
Proof.
  intros R K. pose proof (uinv_reach _ _ R) as U. destruct (i_nil _ _ U K) as (D & H & Nn).
  split; [|split; [|split]].
  - intros n net Hn. exists (u_next s). do 2 eexists. split; [apply us_dial; assumption|].
    apply (us_store _ n (Some (u_next s)) [] (u_pend s)); cbn; auto.
  - intros n L. exists s. apply us_gone; auto. apply get_none. intros Hin. apply in_map_iff in Hin.
    destruct Hin as ([m c] & E & Hin). cbn in E. subst m. apply (i_latest _ _ U) in Hin. congruence.
  - intros n c L. apply (i_latest _ _ U) in L. eexists. apply us_left; auto. apply (get_iff _ n (Some c) (i_names _ _ U)), L.
  - intros n L. destruct (latest t n) as [c|] eqn:E; [|contradiction]. apply (i_latest _ _ U) in E.
    assert (P : forall tab, (forall m, ~ In (m, None) tab) -> exists l : list (bytes * nat), tab = map (fun x => (fst x, Some (snd x))) l).
    { induction tab as [|[m [d|]] tab IH]; intros Hm; [exists []; reflexivity| |].
      - destruct IH as [l ->]; [intros k Hk; apply (Hm k); right; exact Hk|]. exists ((m, d) :: l). reflexivity.
      - exfalso. apply (Hm m). left. reflexivity. }
    destruct (P (u_tab s)) as [l El]. { intros m Hm. apply (Nn m). apply in_app_iff. auto. }
    rewrite El in E. apply in_map_iff in E. destruct E as ([m d] & Em & Hin). cbn in Em. injection Em as -> _.
    exists l, d, s. split; [|exact Hin]. apply us_send; auto; [rewrite El; apply Permutation_refl|].
    intros ->. contradiction.
Qed.
