(** Examples for C176: the server's key among the DNSKEY records of a zone. *)
From Coq Require Import Strings.String Permutation.
From Verif Require Import Bytes BytesProofs Crypto Kdf Toy Wire WireSeq Server ServerSeq SpecServer MultiConn SpecMulti ServerProps ServerExamples MultiExamples
  Keys Client ClientSeq SpecE2E ClientExamples System SpecSystem SystemExamples QuickStart QuickExamples
  Dnssec SpecDnssec DnssecThms DnssecExamples DnssecOrder Production.

(** The zone's key-signing key, garbage, and the server's key; and a zone-signing
    key of its own besides. *)
Definition zone_key : pubkey := PkECDSA P256 8 9.
Definition alone : list bytes := [ksk; str "x"; ex_text qs_pk].
Definition shared : list bytes := [ksk; ex_text zone_key; ex_text qs_pk].
Definition answering (l : list bytes) : bytes -> doh_response := fun _ => DohAnswer 200 (Some (true, l)).
Definition dialled (l : list bytes) : option (hs_error + csession) :=
  let '(_, ss') := srun toy ex_SE (conn_body toy) (set_in (sst0 []) (enc_request (RqSetup (uuid_of ex_rnd) (x_pub toy ex_csk)))) in
  fst (crun toy (resolving ex_CE (answering l)) (handshake toy (Some ex_name)) (c_set_in (cst0 []) (sent_by_server (sst0 []) ss'))).

Lemma zsk_found s alg raw : zsk s alg raw -> exists pk, parse_dnskey s = KOk (Some pk) /\ (material alg raw pk \/ nil_key pk).
Proof.
  intros Z. rewrite (parse_zsk _ _ _ Z).
  destruct (proj1 (decode_key_spec alg raw)) as (pk & E & H); [destruct Z as (?&?&?&?&?); tauto|].
  exists pk. split; [exact E|]. destruct H as [M|K]; [left; exact M|right; tauto].
Qed.
Lemma alone_only x alg raw : In x alone -> zsk x alg raw -> material alg raw qs_pk.
Proof.
  intros [<-|[<-|[<-|[]]]] Z; destruct (zsk_found _ _ _ Z) as (pk & P & H); vm_compute in P; try discriminate P.
  injection P as <-. destruct H as [H|[H|[H|H]]]; [exact H|discriminate H..].
Qed.
Lemma pr_carries : carries qs_pk /\ build_dnskey qs_pk = KOk (ex_text qs_pk).
Proof. split; vm_compute; reflexivity. Qed.
Lemma pr_zone : exists alg raw, zsk (ex_text zone_key) alg raw /\ material alg raw zone_key.
Proof. apply built_zsk; [split; reflexivity|reflexivity]. Qed.
Lemma pr_knows : undisturbed toy (knowing ex_CE qs_pk) ex_SE ex_host ex_name ex_csk ex_rnd ex_sign_key.
Proof.
  destruct ex_undisturbed as [U1 U2 U3 U4 U5 U6 U7 U8 U9 U10]. split; assumption.
Qed.
Lemma pr_runs : dialled alone = Some (inr ex_ses) /\ dialled shared = Some (inl HsSignature) /\ dialled (rev shared) = Some (inr ex_ses).
Proof. vm_compute. auto. Qed.
Definition pr_CE : cenv := resolving ex_CE (answering alone).
Fixpoint sparesr {A} (key : bytes) (sched : list move) (x : sys A) : bool :=
  match sched with
  | [] => true
  | v :: l =>
      match v with
      | MOther j => match next_key (c_prog (t_conn (y_srv x) j)) with Some k => negb (bytes_eqb k key) | None => true end
      | MCollect k => negb (bytes_eqb k key)
      | _ => true
      end &&
      match sys_move toy pr_CE (sys_E 2) (fun _ => true) 0 x v with Some y => sparesr key l y | None => true end
  end.
Lemma sparesr_spares {A} key l : forall x : sys A, sparesr key l x = true -> spares toy pr_CE (sys_E 2) (fun _ => true) 0 key l x.
Proof.
  induction l as [|v l IH]; intros x H; [exact I|]. cbn [sparesr] in H. apply andb_prop in H. destruct H as [H1 H2]. cbn [spares]. split.
  - destruct v as [| |j|j b|k]; cbn; try exact I.
    + intros Hk. rewrite Hk, bytes_eqb_refl in H1. discriminate.
    + intros ->. rewrite bytes_eqb_refl in H1. discriminate.
  - destruct (sys_move _ _ _ _ _ x v); [apply IH, H2|exact I].
Qed.
Lemma pr_talk : sparesr sys_key sched_reply (sys_start ex_opts) = true /\
  outcome (sys_run toy pr_CE (sys_E 2) (fun _ => true) 0 sched_reply (sys_start ex_opts)) =
    Some (Some (inr [RdOk [x41; x21] true; RdOk [x42; x43; x21] true]), [(1, true, [x41]); (2, true, [x42; x43])], [(1, true, [x42])]).
Proof. vm_compute. auto. Qed.
