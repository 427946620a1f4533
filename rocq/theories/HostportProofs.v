(** Proofs about addresses, certificates and key files. *)
From Coq Require Import Strings.String.
From Verif Require Import Bytes BytesProofs Crypto Kdf Wire Toy Server Keys KeysProofs Hostport SpecHostport.

Lemma eqb_spec (a b : byte) : Byte.eqb a b = true <-> a = b.
Proof. split; [apply Byte.byte_dec_bl|apply Byte.byte_dec_lb]. Qed.
Lemma eqb_no (a b : byte) : Byte.eqb a b = false <-> a <> b.
Proof. split; intros H. { intros E. apply eqb_spec in E. congruence. } destruct (Byte.eqb a b) eqn:E; auto. apply eqb_spec in E. contradiction. Qed.

Lemma index_none b s : index b s = None <-> ~ In b s.
Proof.
  induction s as [|c s IH]; cbn [index In]; [tauto|].
  destruct (Byte.eqb c b) eqn:E.
  - apply eqb_spec in E. split; [discriminate|]. intros H. destruct H. auto.
  - apply eqb_no in E. destruct (index b s); cbn [option_map]; split; intros H; try discriminate; try tauto.
    exfalso. assert (X : ~ In b s) by tauto. apply IH in X. discriminate X.
Qed.
Lemma index_some b s i : index b s = Some i -> exists a r, s = a ++ b :: r /\ ~ In b a /\ length a = i.
Proof.
  revert i; induction s as [|c s IH]; cbn [index]; intros i H; [discriminate|].
  destruct (Byte.eqb c b) eqn:E.
  - apply eqb_spec in E. injection H as <-. exists [], s. subst. cbn. auto.
  - apply eqb_no in E. destruct (index b s) as [j|]; cbn [option_map] in H; [|discriminate]. injection H as <-.
    destruct (IH j eq_refl) as (a & r & -> & N & <-). exists (c :: a), r. cbn. intuition.
Qed.
Lemma index_here b a r : ~ In b a -> index b (a ++ b :: r) = Some (length a).
Proof.
  induction a as [|c a IH]; cbn [app index In length]; intros H.
  - rewrite (proj2 (eqb_spec b b) eq_refl). reflexivity.
  - rewrite (proj2 (eqb_no c b)) by tauto. rewrite IH by tauto. reflexivity.
Qed.
Lemma last_none b s : last_index b s = None <-> ~ In b s.
Proof.
  induction s as [|c s IH]; cbn [last_index In]; [tauto|].
  destruct (last_index b s) as [j|].
  - split; [discriminate|]. intros H. assert (X : ~ In b s) by tauto. apply IH in X. discriminate X.
  - destruct (Byte.eqb c b) eqn:E.
    + apply eqb_spec in E. split; [discriminate|tauto].
    + apply eqb_no in E. tauto.
Qed.
Lemma last_some b s i : last_index b s = Some i -> exists a r, s = a ++ b :: r /\ ~ In b r /\ length a = i.
Proof.
  revert i; induction s as [|c s IH]; cbn [last_index]; intros i H; [discriminate|].
  destruct (last_index b s) as [j|] eqn:L.
  - injection H as <-. destruct (IH j eq_refl) as (a & r & -> & N & <-). exists (c :: a), r. auto.
  - destruct (Byte.eqb c b) eqn:E; [|discriminate]. injection H as <-. apply eqb_spec in E. apply last_none in L.
    exists [], s. subst. auto.
Qed.
Lemma last_here b a r : ~ In b r -> last_index b (a ++ b :: r) = Some (length a).
Proof.
  intros H. induction a as [|c a IH]; cbn [app last_index length].
  - rewrite (proj2 (last_none b r) H), (proj2 (eqb_spec b b) eq_refl). reflexivity.
  - rewrite IH. reflexivity.
Qed.
Lemma has_false b s : has b s = false <-> ~ In b s.
Proof. unfold has. rewrite <- index_none. destruct (index b s); split; congruence. Qed.
Lemma has_true b s : has b s = true <-> In b s.
Proof.
  pose proof (has_false b s) as F. destruct (has b s); split; auto; try discriminate.
  - intros _. destruct (in_dec Byte.byte_eq_dec b s) as [I|I]; auto. apply F in I. discriminate I.
  - intros H. exfalso. apply F; auto.
Qed.

Lemma none3 s : none_of [x3a; x5b; x5d] s <-> ~ In x3a s /\ ~ In x5b s /\ ~ In x5d s.
Proof.
  unfold none_of. split.
  - intros H. repeat split; intros I; apply (H _ I); cbn; auto.
  - intros (A & B & D) c I [<-|[<-|[<-|[]]]]; auto.
Qed.
Lemma none2 s : none_of [x5b; x5d] s <-> ~ In x5b s /\ ~ In x5d s.
Proof.
  unfold none_of. split.
  - intros H. repeat split; intros I; apply (H _ I); cbn; auto.
  - intros (A & B) c I [<-|[<-|[]]]; auto.
Qed.

Lemma skip_len {A} (a : list A) b r : skipn (S (length a)) (a ++ b :: r) = r.
Proof. induction a; cbn [app length skipn]; auto. Qed.
Lemma first_len {A} (a : list A) r : firstn (length a) (a ++ r) = a.
Proof. induction a; cbn [app length firstn]; [reflexivity|rewrite IHa; reflexivity]. Qed.

Lemma split_sound hp h p : split_host_port hp = Some (h, p) -> hostport_of hp h p.
Proof.
  unfold split_host_port. destruct (last_index colon hp) as [i|] eqn:L; [|discriminate].
  apply last_some in L. destruct L as (a & r & -> & Nr & <-).
  destruct (match a ++ colon :: r with c :: _ => Byte.eqb c lbracket | [] => false end) eqn:B.
  - destruct (index rbracket (a ++ colon :: r)) as [e|] eqn:I; [|discriminate].
    destruct (Nat.eqb (S e) (length a)) eqn:Q; [|discriminate]. apply Nat.eqb_eq in Q.
    destruct (has lbracket (skipn 1 (a ++ colon :: r))) eqn:H1; [discriminate|].
    destruct (has rbracket (skipn (S e) (a ++ colon :: r))) eqn:H2; [discriminate|].
    rewrite skip_len. intros X. apply (f_equal (fun o => match o with Some x => x | None => ([], []) end)) in X.
    assert (X2 := f_equal snd X). assert (X1 := f_equal fst X). cbn [fst snd] in X1, X2. clear X. subst r.
    rewrite has_false in H1, H2. apply index_some in I. destruct I as (a' & r' & T & Na' & <-).
    assert (a = a' ++ [rbracket] /\ r' = colon :: p) as [-> ->].
    { clear - T Q. revert a T Q. induction a' as [|x a' IH]; intros [|y a] T Q; cbn [length] in Q; try lia; cbn [app] in T.
      - destruct a; cbn in Q; [|lia]. cbn [app] in *. injection T as -> <-. auto.
      - injection T as -> T. destruct (IH a T) as [-> ->]; [cbn in Q; lia|]. auto. }
    rewrite <- !app_assoc in *. cbn [app] in *. rewrite skip_len in H2.
    destruct a' as [|x a']; cbn [app] in *; [apply eqb_spec in B; discriminate B|].
    apply eqb_spec in B. subst x. right.
    cbn [length firstn skipn] in X1. rewrite first_len in X1. subst a'.
    cbn [skipn] in H1.
    split; [reflexivity|]. rewrite none2, none3.
    assert (Hh : ~ In x5b h) by (intros I; apply H1; apply in_or_app; auto).
    assert (Hp : ~ In x5b p) by (intros I; apply H1; apply in_or_app; right; cbn; auto).
    assert (Hr : ~ In x5d h) by (intros I; apply Na'; cbn; auto).
    assert (Hq : ~ In x5d p) by (intros I; apply H2; cbn; auto).
    auto.
  - destruct (has colon (firstn (length a) (a ++ colon :: r))) eqn:H1; [discriminate|].
    destruct (has lbracket (a ++ colon :: r)) eqn:H2; [discriminate|].
    destruct (has rbracket (a ++ colon :: r)) eqn:H3; [discriminate|].
    rewrite first_len in *. rewrite has_false in *. rewrite skip_len. intros X. injection X as -> ->.
    left. split; [reflexivity|]. rewrite !none3.
    repeat split; auto; intros I; solve [apply H2; apply in_or_app; cbn; auto|apply H3; apply in_or_app; cbn; auto].
Qed.
Lemma split_complete hp h p : hostport_of hp h p -> split_host_port hp = Some (h, p).
Proof.
  unfold split_host_port. intros [(-> & Hh & Hp)|(-> & Hh & Hp)]; rewrite ?none3, ?none2 in *.
  - destruct Hh as (A1 & A2 & A3), Hp as (B1 & B2 & B3). cbn [app]. change x3a with colon.
    rewrite (last_here colon h p B1).
    replace (match h ++ colon :: p with c :: _ => Byte.eqb c lbracket | [] => false end) with false.
    2:{ destruct h as [|c h]; [reflexivity|]. cbn [app]. symmetry. apply eqb_no. intros ->. apply A2. left. reflexivity. }
    rewrite first_len, (proj2 (has_false colon h) A1).
    rewrite (proj2 (has_false lbracket _)), (proj2 (has_false rbracket _)).
    + rewrite skip_len. reflexivity.
    + intros I. apply in_app_or in I. destruct I as [I|[I|I]]; try discriminate I; auto.
    + intros I. apply in_app_or in I. destruct I as [I|[I|I]]; try discriminate I; auto.
  - destruct Hh as (A2 & A3), Hp as (B1 & B2 & B3). cbn [app].
    change (x5b :: h ++ x5d :: x3a :: p) with ((x5b :: h) ++ rbracket :: (colon :: p)).
    rewrite index_here. 2:{ intros [I|I]; [discriminate I|auto]. }
    replace ((x5b :: h) ++ rbracket :: colon :: p) with ((x5b :: h ++ [rbracket]) ++ colon :: p)
      by (cbn [app]; rewrite <- app_assoc; reflexivity).
    rewrite (last_here colon _ p B1).
    replace (match (x5b :: h ++ [rbracket]) ++ colon :: p with c :: _ => Byte.eqb c lbracket | [] => false end) with true by reflexivity.
    replace (Nat.eqb (S (length (x5b :: h))) (length (x5b :: h ++ [rbracket]))) with true.
    2:{ symmetry. apply Nat.eqb_eq. cbn [length]. rewrite app_length. cbn. lia. }
    rewrite skip_len.
    replace ((x5b :: h ++ [rbracket]) ++ colon :: p) with ((x5b :: h) ++ rbracket :: (colon :: p))
      by (cbn [app]; rewrite <- app_assoc; reflexivity).
    rewrite skip_len, first_len.
    rewrite (proj2 (has_false lbracket _)), (proj2 (has_false rbracket _)).
    + reflexivity.
    + intros [I|I]; [discriminate I|auto].
    + cbn [app skipn]. intros I. apply in_app_or in I. destruct I as [I|[I|[I|I]]]; try discriminate I; auto.
Qed.
Lemma split_exact hp h p : split_host_port hp = Some (h, p) <-> hostport_of hp h p.
Proof. split; [apply split_sound|apply split_complete]. Qed.

Lemma join_forms h p : none_of [x5b; x5d] h -> none_of [x3a; x5b; x5d] p -> hostport_of (join_host_port h p) h p.
Proof.
  intros Hh Hp. unfold join_host_port. destruct (has colon h) eqn:E.
  - right. auto.
  - left. rewrite has_false in E. rewrite none2 in Hh. split; [reflexivity|]. split; [|exact Hp]. apply none3. tauto.
Qed.
Lemma split_join h p : none_of [x5b; x5d] h -> none_of [x3a; x5b; x5d] p -> split_host_port (join_host_port h p) = Some (h, p).
Proof. intros. apply split_complete, join_forms; auto. Qed.

Lemma digits_none u : none_of [x3a; x5b; x5d] (digits u).
Proof.
  intros c. induction u; cbn [digits In]; try (intros [<-|I]; [cbn; intuition discriminate|auto]). tauto.
Qed.
Lemma port_none n : none_of [x3a; x5b; x5d] (fmt_uint n).
Proof. apply digits_none. Qed.

Definition host_text (ip zone : bytes) : bytes := match zone with [] => ip | _ => ip ++ x25 :: zone end.
Lemma host_text_none ip zone : none_of [x5b; x5d] ip -> none_of [x5b; x5d] zone -> none_of [x5b; x5d] (host_text ip zone).
Proof.
  intros A B. unfold host_text. destruct zone as [|z zone]; auto. intros c I. apply in_app_or in I.
  destruct I as [I|[<-|I]]; [apply A; auto|cbn; intuition discriminate|apply B; auto].
Qed.
Lemma host_of_addr ip zone port : none_of [x5b; x5d] ip -> none_of [x5b; x5d] zone ->
  host_of (addr_string ip zone port) = Some (host_text ip zone).
Proof.
  intros A B. unfold host_of, addr_string. fold (host_text ip zone).
  rewrite split_join; [reflexivity|apply host_text_none; auto|apply port_none].
Qed.
Lemma cut_at (b : byte) a1 r1 : forall a2 r2, ~ In b a1 -> ~ In b a2 -> a1 ++ b :: r1 = a2 ++ b :: r2 -> a1 = a2 /\ r1 = r2.
Proof.
  induction a1 as [|x a1 IH]; intros [|y a2] r2 H1 H2 T; cbn [app] in T.
  - injection T as ->. auto.
  - injection T as -> T. destruct H2. left. reflexivity.
  - injection T as -> T. destruct H1. left. reflexivity.
  - injection T as -> T. destruct (IH a2 r2) as [-> ->]; auto; intros I; [apply H1|apply H2]; right; auto.
Qed.
Lemma host_text_inj ip1 z1 ip2 z2 : ~ In x25 ip1 -> ~ In x25 ip2 ->
  host_text ip1 z1 = host_text ip2 z2 -> ip1 = ip2 /\ z1 = z2.
Proof.
  unfold host_text. intros H1 H2 T. destruct z1 as [|a z1], z2 as [|b z2].
  - auto.
  - subst ip1. destruct H1. apply in_or_app. right. left. reflexivity.
  - subst ip2. destruct H2. apply in_or_app. right. left. reflexivity.
  - apply cut_at in T; auto.
Qed.
Lemma same_host ip1 z1 p1 ip2 z2 p2 :
  none_of [x25; x5b; x5d] ip1 -> none_of [x25; x5b; x5d] ip2 -> none_of [x5b; x5d] z1 -> none_of [x5b; x5d] z2 ->
  (host_of (addr_string ip1 z1 p1) = host_of (addr_string ip2 z2 p2) <-> ip1 = ip2 /\ z1 = z2).
Proof.
  assert (W : forall s, none_of [x25; x5b; x5d] s -> none_of [x5b; x5d] s /\ ~ In x25 s).
  { intros s H. split. - intros c I J. apply (H c I). right. exact J. - intros I. apply (H _ I). left. reflexivity. }
  intros A1 A2 B1 B2. apply W in A1, A2. destruct A1, A2. rewrite !host_of_addr by auto. split.
  - intros X. injection X as X. apply host_text_inj in X; auto.
  - intros [-> ->]. reflexivity.
Qed.
Lemma host_known ip zone port : none_of [x5b; x5d] ip -> none_of [x5b; x5d] zone ->
  host_of (addr_string ip zone port) = Some (match zone with [] => ip | _ => ip ++ x25 :: zone end).
Proof. exact (host_of_addr ip zone port). Qed.

(** The fetcher of certificates *)
Lemma tls_addr_split hp h p port : split_host_port hp = Some (h, p) ->
  split_host_port (tls_addr h port) = if has colon h then None else Some (h, fmt_uint port).
Proof.
  intros S. apply split_sound in S. destruct (has colon h) eqn:B.
  - apply has_true in B. destruct (split_host_port (tls_addr h port)) as [[h' p']|] eqn:T; [|reflexivity]. exfalso.
    apply split_sound in T.
    assert (Hb : ~ In x5b h) by (destruct S as [(_ & X & _)|(_ & X & _)]; [apply none3 in X|apply none2 in X]; tauto).
    unfold tls_addr in T. change (str ":" ++ fmt_uint port) with (colon :: fmt_uint port) in T.
    destruct T as [(T & X & Y)|(T & X & Y)].
    + apply none3 in X, Y. cbn [app] in T.
      pose proof (port_none port) as PN. apply none3 in PN.
      assert (h ++ colon :: fmt_uint port = h' ++ colon :: p') as T' by exact T.
      assert (L1 := last_here colon h (fmt_uint port) (proj1 PN)). rewrite T', (last_here colon h' p' (proj1 Y)) in L1.
      injection L1 as L1.
      assert (h' = h). { rewrite <- (first_len h (colon :: fmt_uint port)), T', <- L1. symmetry. apply first_len. }
      subst h'. apply (proj1 X). exact B.
    + cbn [app] in T. destruct h as [|c h]; cbn [app] in T; injection T as T1 T2; [discriminate T1|]. subst c. apply Hb. left. reflexivity.
  - apply split_complete. left. split; [reflexivity|]. rewrite has_false in B. split; [|apply port_none].
    destruct S as [(_ & X & _)|(_ & X & _)]; [exact X|]. apply none2 in X. apply none3. tauto.
Qed.
Lemma tls_ipv6 E port hp h p : split_host_port hp = Some (h, p) -> In colon h -> tls_fetch E port h = TlsErr.
Proof.
  intros S I. unfold tls_fetch, tls_dial. rewrite (tls_addr_split _ _ _ port S), (proj2 (has_true colon h) I). reflexivity.
Qed.
Lemma tls_reaches E port hp h p : split_host_port hp = Some (h, p) -> ~ In colon h ->
  forall c cs, te_dial E h (fmt_uint port) = Some (c :: cs) -> ct_names c h = true ->
  (te_now E 0 <= ct_not_after c)%Z -> (ct_not_before c <= te_now E 1)%Z -> te_close E = true ->
  tls_fetch E port h = TlsOk (ct_key c).
Proof.
  intros S I c cs D N A B K. unfold tls_fetch, tls_dial. rewrite (tls_addr_split _ _ _ port S), (proj2 (has_false colon h) I), D, N, K.
  cbn [negb]. destruct (Z.ltb_spec (ct_not_after c) (te_now E 0)); [lia|]. destruct (Z.ltb_spec (te_now E 1) (ct_not_before c)); [lia|]. reflexivity.
Qed.
Lemma tls_sound E port host : tls_sane E -> tls_fetch E port host <> TlsPanic /\
  forall k, tls_fetch E port host = TlsOk k ->
  exists h p c cs t, split_host_port (tls_addr host port) = Some (h, p) /\ te_dial E h p = Some (c :: cs) /\
    ct_names c host = true /\ (te_now E 0 <= t <= te_now E 1)%Z /\ valid_at c t /\ k = ct_key c.
Proof.
  intros (S1 & S2 & S3). unfold tls_fetch, tls_dial.
  destruct (split_host_port (tls_addr host port)) as [[h p]|]; [|split; [discriminate|intros k X; discriminate X]].
  destruct (te_dial E h p) as [[|c cs]|] eqn:D; [exfalso; apply (S1 h p D)| |split; [discriminate|intros k X; discriminate X]].
  destruct (ct_names c host) eqn:N; cbn [negb]; [|split; [discriminate|intros k X; discriminate X]].
  destruct (Z.ltb_spec (ct_not_after c) (te_now E 0)); [split; [discriminate|intros k X; discriminate X]|].
  destruct (Z.ltb_spec (te_now E 1) (ct_not_before c)); [split; [discriminate|intros k X; discriminate X]|].
  destruct (te_close E); [|split; [discriminate|intros k X; discriminate X]].
  split; [discriminate|]. intros k X. injection X as <-. pose proof (S3 h p c cs D).
  exists h, p, c, cs, (Z.max (te_now E 0) (ct_not_before c)). unfold valid_at. repeat split; auto; lia.
Qed.

Lemma last_cut (b : byte) a1 r1 a2 r2 : ~ In b r1 -> ~ In b r2 -> a1 ++ b :: r1 = a2 ++ b :: r2 -> a1 = a2 /\ r1 = r2.
Proof.
  intros H1 H2 T. apply (f_equal (@rev byte)) in T. rewrite !rev_app_distr in T. cbn [rev] in T. rewrite <- !app_assoc in T. cbn [app] in T.
  apply cut_at in T; [|rewrite <- in_rev; assumption..]. destruct T as [X Y].
  split; [rewrite <- (rev_involutive a1), Y, rev_involutive|rewrite <- (rev_involutive r1), X, rev_involutive]; reflexivity.
Qed.
Lemma tls_where host port h p : split_host_port (tls_addr host port) = Some (h, p) ->
  p = fmt_uint port /\ (host = h \/ host = [x5b] ++ h ++ [x5d]).
Proof.
  intros S. apply split_sound in S. unfold tls_addr in S. change (str ":") with [x3a] in S. cbn [app] in S.
  pose proof (port_none port) as Q. rewrite none3 in Q. destruct Q as (Q & _ & _).
  destruct S as [(T & _ & P)|(T & _ & P)]; rewrite none3 in P; destruct P as (P & _ & _).
  - apply last_cut in T; auto. destruct T as [-> ->]. auto.
  - change ([x5b] ++ h ++ [x5d; x3a] ++ p) with (x5b :: h ++ [x5d] ++ x3a :: p) in T.
    replace (x5b :: h ++ [x5d] ++ x3a :: p) with ((x5b :: h ++ [x5d]) ++ x3a :: p) in T by (cbn [app]; rewrite <- app_assoc; reflexivity).
    apply last_cut in T; auto. destruct T as [-> ->]. auto.
Qed.
Lemma tls_genuine E port host : tls_sane E -> tls_fetch E port host <> TlsPanic /\
  forall k, tls_fetch E port host = TlsOk k ->
  exists h c cs t, (host = h \/ host = [x5b] ++ h ++ [x5d]) /\ te_dial E h (fmt_uint port) = Some (c :: cs) /\
    ct_names c host = true /\ (te_now E 0 <= t <= te_now E 1)%Z /\ valid_at c t /\ k = ct_key c.
Proof.
  intros S. destruct (tls_sound E port host S) as [A B]. split; auto. intros k H.
  destruct (B k H) as (h & p & c & cs & t & X & D & R). apply tls_where in X. destruct X as [-> X]. exists h, c, cs, t. auto.
Qed.

(** Dialling with that fetcher *)
From Verif Require Import Client ClientSeq.
Lemma dial_ipv6 C E T port hp h p s : split_host_port hp = Some (h, p) -> In x3a h ->
  (forall x, ce_fetch E x = tls_answers T port x) ->
  crun C E (handshake C (option_map fst (split_host_port hp))) s = (Some (inl HsFetch), s).
Proof.
  intros S I F. rewrite S. cbn [option_map fst handshake cbind cdo crun cexec]. rewrite F. unfold tls_answers.
  rewrite (tls_ipv6 T port hp h p S I). reflexivity.
Qed.

(** Key files *)
Lemma manager_keys C : CryptoLaws C -> forall sk, sk <> SkOther -> exists alg pk, fetch_key C sk = KOk (alg, pk) /\ supported pk.
Proof.
  intros L [k|k|k|] H; try contradiction; cbn [fetch_key].
  - do 2 eexists. split; [reflexivity|]. left. eauto.
  - destruct (ecdsa_pub C k) as [[c x] y]. do 2 eexists. split; [reflexivity|]. right. left. eauto.
  - do 2 eexists. split; [reflexivity|]. right. right. eexists. split; [reflexivity|]. apply (ed_pub_len C L).
Qed.
Lemma supported_no_panic C pk h content sig : supported pk -> verify_signature C pk h content sig <> VPanic.
Proof.
  intros S. unfold verify_signature. destruct (digest C h content); [|discriminate].
  destruct S as [(n & e & ->)|[(c & x & y & ->)|(k & -> & K)]]; try discriminate. rewrite K. discriminate.
Qed.
Lemma parsed_manager E data sk : parse_manager_pem E data = Some sk ->
  sk <> SkOther /\ exists raw, fe_pem E data = Some (str "PRIVATE KEY", raw) /\ fe_pkcs8 E raw = Some sk.
Proof.
  unfold parse_manager_pem. destruct (fe_pem E data) as [[ty raw]|]; [|discriminate].
  destruct (bytes_eqb_spec ty (str "PRIVATE KEY")) as [->|]; [|discriminate].
  intros H. split.
  - intros ->. destruct (fe_pkcs8 E raw) as [[]|]; discriminate H.
  - exists raw. split; [reflexivity|]. destruct (fe_pkcs8 E raw) as [[]|]; try discriminate H; exact H.
Qed.
Lemma parsed_manager_works C : CryptoLaws C -> forall E data sk, parse_manager_pem E data = Some sk ->
  exists alg pk, fetch_key C sk = KOk (alg, pk) /\ supported pk /\
    forall rnd h content sig, sign C sk rnd h content = KOk sig -> verify_signature C pk h content sig = VOk true.
Proof.
  intros L E data sk H. apply parsed_manager in H. destruct H as [N _].
  destruct (manager_keys C L sk N) as (alg & pk & F & S). exists alg, pk. repeat split; auto.
  intros rnd h content sig G. exact (sign_verify C L sk rnd h content sig alg pk G F).
Qed.

(** A library that refuses RSA keys below 94 octets (PKCS #1 v1.5 with SHA-512
    needs 83 and the key at least 11 more). *)
Definition toy_short : Crypto := {|
  x_pub := x_pub toy; x_dh := x_dh toy; pkix_other := pkix_other toy; pkix_enc_other := pkix_enc_other toy;
  sha256 := sha256 toy; sha384 := sha384 toy; sha512 := sha512 toy; hmac256 := hmac256 toy;
  gcm_seal := gcm_seal toy; gcm_open := gcm_open toy; rsa_pub := rsa_pub toy; ecdsa_pub := ecdsa_pub toy; ed_pub := ed_pub toy;
  rsa_sign := fun sk h d => if (length sk <? 94)%nat then None else rsa_sign toy sk h d;
  ecdsa_sign := ecdsa_sign toy; ed_sign := ed_sign toy;
  rsa_verify := rsa_verify toy; ecdsa_verify := ecdsa_verify toy; ed_verify := ed_verify toy |}.
Lemma toy_short_laws : CryptoLaws toy_short.
Proof.
  destruct toy_laws. constructor; auto. cbn [toy_short rsa_sign rsa_verify rsa_pub]. intros sk h d s H.
  destruct (length sk <? 94)%nat; [discriminate H|]. auto.
Qed.
Definition short_key_file : file_env := {|
  fe_pem := fun d => Some (str "PRIVATE KEY", d); fe_pkcs8 := fun r => Some (SkRSA r);
  fe_rsa := None; fe_p521 := None; fe_ed := None |}.
Lemma manager_useless : exists C E data sk, CryptoLaws C /\ parse_manager_pem E data = Some sk /\
  forall rnd h content, sign C sk rnd h content = KErr.
Proof.
  exists toy_short, short_key_file, (repeat x01 64), (SkRSA (repeat x01 64)).
  split; [exact toy_short_laws|]. split; [reflexivity|]. intros rnd [] content; reflexivity.
Qed.

Lemma generated C : CryptoLaws C -> forall E alg sk, generate_manager E alg = Some sk ->
  (alg = 1 \/ alg = 2 \/ alg = 3) /\ exists pk, fetch_key C sk = KOk (alg, pk) /\ supported pk.
Proof.
  intros L E alg sk. unfold generate_manager, alg_rsa, alg_ecdsa, alg_ed25519.
  destruct (N.eqb_spec alg 1) as [->|]; [|destruct (N.eqb_spec alg 2) as [->|]; [|destruct (N.eqb_spec alg 3) as [->|]; [|discriminate]]].
  - destruct (fe_rsa E) as [k|]; [|discriminate]. intros H. injection H as <-. split; auto.
    destruct (manager_keys C L (SkRSA k)) as (a & pk & F & S); [discriminate|]. exists pk. split; auto.
    cbn [fetch_key] in *. injection F as _ <-. reflexivity.
  - destruct (fe_p521 E) as [k|]; [|discriminate]. intros H. injection H as <-. split; auto.
    destruct (manager_keys C L (SkECDSA k)) as (a & pk & F & S); [discriminate|]. exists pk. split; auto.
    cbn [fetch_key] in *. destruct (ecdsa_pub C k) as [[c x] y]. injection F as _ <-. reflexivity.
  - destruct (fe_ed E) as [k|]; [|discriminate]. intros H. injection H as <-. split; auto.
    destruct (manager_keys C L (SkEd25519 k)) as (a & pk & F & S); [discriminate|]. exists pk. split; auto.
    cbn [fetch_key] in *. injection F as _ <-. reflexivity.
Qed.
Lemma generates E alg : (generate_manager E alg = None <->
  (alg <> 1 \/ fe_rsa E = None) /\ (alg <> 2 \/ fe_p521 E = None) /\ (alg <> 3 \/ fe_ed E = None)).
Proof.
  unfold generate_manager, alg_rsa, alg_ecdsa, alg_ed25519.
  destruct (N.eqb_spec alg 1) as [->|]; [|destruct (N.eqb_spec alg 2) as [->|]; [|destruct (N.eqb_spec alg 3) as [->|]]].
  - destruct (fe_rsa E); cbn; split; intros; try discriminate; intuition (try discriminate; try lia).
  - destruct (fe_p521 E); cbn; split; intros; try discriminate; intuition (try discriminate; try lia).
  - destruct (fe_ed E); cbn; split; intros; try discriminate; intuition (try discriminate; try lia).
  - tauto.
Qed.

Definition pub_file : file_env := {|
  fe_pem := fun d => Some (str "PUBLIC KEY", d); fe_pkcs8 := fun _ => None; fe_rsa := None; fe_p521 := None; fe_ed := None |}.
Lemma fetcher_useless C : exists E data pk, parse_fetcher_pem C E data = Some pk /\
  forall h content sig, verify_signature C pk h content sig = VErr.
Proof.
  exists pub_file, (pkix_x25519 (repeat x09 32)), (PkX25519 (repeat x09 32)). split; [reflexivity|].
  intros h content sig. unfold verify_signature. destruct (digest C h content); reflexivity.
Qed.
Lemma fetcher_exact C E data pk : parse_fetcher_pem C E data = Some pk <->
  exists raw, fe_pem E data = Some (str "PUBLIC KEY", raw) /\ pkix_parse C raw = Some pk.
Proof.
  unfold parse_fetcher_pem. destruct (fe_pem E data) as [[ty raw]|].
  - destruct (bytes_eqb_spec ty (str "PUBLIC KEY")) as [->|N].
    + split; [eauto|]. intros (r & X & Y). injection X as <-. exact Y.
    + split; [discriminate|]. intros (r & X & Y). injection X as X _. contradiction.
  - split; [discriminate|]. intros (r & X & Y). discriminate X.
Qed.
Lemma files_agree C : CryptoLaws C -> forall E sk alg pk raw data, fetch_key C sk = KOk (alg, pk) ->
  pkix_marshal C pk = Some raw -> pkix_parse C raw = Some pk -> fe_pem E data = Some (str "PUBLIC KEY", raw) ->
  parse_fetcher_pem C E data = Some pk /\
  forall rnd h content sig, sign C sk rnd h content = KOk sig -> verify_signature C pk h content sig = VOk true.
Proof.
  intros L E sk alg pk raw data F M P D. split.
  - apply fetcher_exact. eauto.
  - intros rnd h content sig G. exact (sign_verify C L sk rnd h content sig alg pk G F).
Qed.

Lemma managers C : CryptoLaws C ->
  (forall E data sk, parse_manager_pem E data = Some sk ->
     (sk <> SkOther /\ exists raw, fe_pem E data = Some (str "PRIVATE KEY", raw) /\ fe_pkcs8 E raw = Some sk) /\
     exists alg pk, fetch_key C sk = KOk (alg, pk) /\ supported pk /\
       forall rnd h content sig, sign C sk rnd h content = KOk sig -> verify_signature C pk h content sig = VOk true) /\
  (forall E alg sk, generate_manager E alg = Some sk ->
     (alg = 1 \/ alg = 2 \/ alg = 3) /\ exists pk, fetch_key C sk = KOk (alg, pk) /\ supported pk) /\
  (forall E alg, generate_manager E alg = None <->
     (alg <> 1 \/ fe_rsa E = None) /\ (alg <> 2 \/ fe_p521 E = None) /\ (alg <> 3 \/ fe_ed E = None)).
Proof.
  intros L. split; [|split; [exact (generated C L)|exact generates]].
  intros E data sk H. split; [exact (parsed_manager E data sk H)|exact (parsed_manager_works C L E data sk H)].
Qed.
Lemma fetchers C : CryptoLaws C ->
  (forall E data pk, parse_fetcher_pem C E data = Some pk <->
     exists raw, fe_pem E data = Some (str "PUBLIC KEY", raw) /\ pkix_parse C raw = Some pk) /\
  (forall E sk alg pk raw data, fetch_key C sk = KOk (alg, pk) ->
     pkix_marshal C pk = Some raw -> pkix_parse C raw = Some pk -> fe_pem E data = Some (str "PUBLIC KEY", raw) ->
     parse_fetcher_pem C E data = Some pk /\
     forall rnd h content sig, sign C sk rnd h content = KOk sig -> verify_signature C pk h content sig = VOk true) /\
  (forall pk h content sig, supported pk -> verify_signature C pk h content sig <> VPanic).
Proof.
  intros L. split; [exact (fetcher_exact C)|split; [exact (files_agree C L)|]]. intros pk h content sig S. exact (supported_no_panic C pk h content sig S).
Qed.
