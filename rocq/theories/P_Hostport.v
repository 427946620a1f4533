(** Properties C122-C126: addresses, certificates and key files. *)
From Coq Require Import Strings.String.
From Verif Require Import Bytes Crypto Kdf Wire Server Keys Hostport SpecHostport HostportProofs Client ClientSeq ClientExamples Toy.

(** C122. Splitting an address answers the host and the port it is made of, and
    nothing else splits. The host the server keeps for a peer is the text of its
    IP (and zone), so that two peers have the same host exactly if they have the
    same IP and zone, whatever their ports. *)
Theorem C122_host_is_the_peers :
  (forall hp h p, split_host_port hp = Some (h, p) <-> hostport_of hp h p) /\
  (forall ip zone port, none_of [x5b; x5d] ip -> none_of [x5b; x5d] zone ->
     host_of (addr_string ip zone port) = Some (match zone with [] => ip | _ => ip ++ x25 :: zone end)) /\
  (forall ip1 z1 p1 ip2 z2 p2,
     none_of [x25; x5b; x5d] ip1 -> none_of [x25; x5b; x5d] ip2 -> none_of [x5b; x5d] z1 -> none_of [x5b; x5d] z2 ->
     (host_of (addr_string ip1 z1 p1) = host_of (addr_string ip2 z2 p2) <-> ip1 = ip2 /\ z1 = z2)).
Proof. exact (conj split_exact (conj host_known same_host)). Qed.
Print Assumptions C122_host_is_the_peers.
Example C122_example :
  addr_string (str "fe80::1") (str "eth0") 40213 = str "[fe80::1%eth0]:40213" /\
  host_of (str "[fe80::1%eth0]:40213") = Some (str "fe80::1%eth0") /\
  addr_string (str "192.0.2.7") [] 53 = str "192.0.2.7:53" /\ host_of (str "192.0.2.7:53") = Some (str "192.0.2.7") /\
  host_of (str "::1:443") = None /\ host_of (str "a[b]:1") = None /\ split_host_port (str ":80") = Some ([], str "80").
Proof. vm_compute. repeat split. Qed.

(** C123 is refuted: with the fetcher of TLS certificates no client reaches a
    server named by an IPv6 address, whatever the network and the server do: the
    address "[2001:db8::1]:9000" is split into "2001:db8::1", to which ":443" is
    appended without brackets. *)
Theorem C123_tls_key_found_refuted : forall C E T port hp h p s, split_host_port hp = Some (h, p) -> In x3a h ->
  (forall x, ce_fetch E x = tls_answers T port x) ->
  crun C E (handshake C (option_map fst (split_host_port hp))) s = (Some (inl HsFetch), s).
Proof. exact dial_ipv6. Qed.
Print Assumptions C123_tls_key_found_refuted.
(** Any other host, if it presents a certificate for its name that is valid, is
    found. Missing: hosts with a colon in them. *)
Theorem C123_tls_key_found_partial : forall T port hp h p, split_host_port hp = Some (h, p) -> ~ In x3a h ->
  forall c cs, te_dial T h (fmt_uint port) = Some (c :: cs) -> ct_names c h = true ->
  (te_now T 0 <= ct_not_after c)%Z -> (ct_not_before c <= te_now T 1)%Z -> te_close T = true ->
  tls_fetch T port h = TlsOk (ct_key c).
Proof. exact tls_reaches. Qed.
Print Assumptions C123_tls_key_found_partial.
Definition ex_cert : cert := {|
  ct_names := fun h => bytes_eqb h (str "e2ee.example") || bytes_eqb h (str "2001:db8::1");
  ct_not_before := 100; ct_not_after := 200; ct_key := PkRSA 35 5 |}.
Definition ex_tls (now : Z) : tls_env := {|
  te_dial := fun _ p => if bytes_eqb p (str "443") then Some [ex_cert] else None; te_close := true; te_now := fun i => (now + Z.of_nat i)%Z |}.
Definition ex_tls_client : cenv := {|
  ce_end := ce_end ex_CE; ce_write := ce_write ex_CE; ce_deadline := ce_deadline ex_CE;
  ce_fetch := tls_answers (ex_tls 150) 443; ce_rand := ce_rand ex_CE; ce_gen := ce_gen ex_CE |}.
Example C123_example :
  fst (crun toy ex_tls_client (handshake toy (option_map fst (split_host_port (str "[2001:db8::1]:9000")))) (cst0 [])) = Some (inl HsFetch) /\
  fst (crun toy ex_tls_client (handshake toy (option_map fst (split_host_port (str "e2ee.example:9000")))) (cst0 [])) <> Some (inl HsFetch) /\
  split_host_port (str "[2001:db8::1]:9000") = Some (str "2001:db8::1", str "9000") /\
  tls_fetch (ex_tls 150) 443 (str "2001:db8::1") = TlsErr /\
  te_dial (ex_tls 150) (str "2001:db8::1") (str "443") = Some [ex_cert] /\ ct_names ex_cert (str "2001:db8::1") = true /\
  split_host_port (str "e2ee.example:9000") = Some (str "e2ee.example", str "9000") /\
  tls_fetch (ex_tls 150) 443 (str "e2ee.example") = TlsOk (PkRSA 35 5).
Proof. vm_compute. repeat split. discriminate. Qed.

(** C124. A key from TLS is the key of the leaf certificate of a connection to
    that host on the configured port; the certificate names the host and was valid
    at a moment of the fetch. *)
Theorem C124_tls_key_is_certified : forall T port host, tls_sane T -> tls_fetch T port host <> TlsPanic /\
  forall k, tls_fetch T port host = TlsOk k ->
  exists h c cs t, (host = h \/ host = [x5b] ++ h ++ [x5d]) /\ te_dial T h (fmt_uint port) = Some (c :: cs) /\
    ct_names c host = true /\ (te_now T 0 <= t <= te_now T 1)%Z /\ valid_at c t /\ k = ct_key c.
Proof. exact tls_genuine. Qed.
Print Assumptions C124_tls_key_is_certified.
Example C124_example : tls_sane (ex_tls 150) /\ tls_fetch (ex_tls 150) 443 (str "e2ee.example") = TlsOk (PkRSA 35 5) /\
  tls_fetch (ex_tls 201) 443 (str "e2ee.example") = TlsErr /\ tls_fetch (ex_tls 98) 443 (str "e2ee.example") = TlsErr /\
  tls_fetch (ex_tls 150) 443 (str "evil.example") = TlsErr /\ tls_fetch (ex_tls 150) 8443 (str "e2ee.example") = TlsErr.
Proof.
  split; [|vm_compute; repeat split]. split; [|split]; cbn [ex_tls te_dial te_now].
  - intros h p. destruct (bytes_eqb p (str "443")); discriminate.
  - lia.
  - intros h p c cs. destruct (bytes_eqb p (str "443")); [|discriminate]. intros H. injection H as <- _. cbn. lia.
Qed.

(** C125 is refuted: a key file is accepted although its key never signs anything,
    namely an RSA key too short for a SHA-512 digest. *)
Theorem C125_loaded_key_signs_refuted : exists C E data sk, CryptoLaws C /\ parse_manager_pem E data = Some sk /\
  forall rnd h content, sign C sk rnd h content = KErr.
Proof. exact manager_useless. Qed.
Print Assumptions C125_loaded_key_signs_refuted.
(** A key that was loaded is the PKCS #8 key of the file and has a public half
    that the protocol can carry; whatever it signs is verified with that half. A
    key made on the fly has the algorithm that was asked for, and only an unknown
    algorithm or a failing generator yields none. Missing: that signing succeeds. *)
Theorem C125_loaded_key_signs_partial : forall C, CryptoLaws C ->
  (forall E data sk, parse_manager_pem E data = Some sk ->
     (sk <> SkOther /\ exists raw, fe_pem E data = Some (str "PRIVATE KEY", raw) /\ fe_pkcs8 E raw = Some sk) /\
     exists alg pk, fetch_key C sk = KOk (alg, pk) /\ supported pk /\
       forall rnd h content sig, sign C sk rnd h content = KOk sig -> verify_signature C pk h content sig = VOk true) /\
  (forall E alg sk, generate_manager E alg = Some sk ->
     (alg = 1 \/ alg = 2 \/ alg = 3) /\ exists pk, fetch_key C sk = KOk (alg, pk) /\ supported pk) /\
  (forall E alg, generate_manager E alg = None <->
     (alg <> 1 \/ fe_rsa E = None) /\ (alg <> 2 \/ fe_p521 E = None) /\ (alg <> 3 \/ fe_ed E = None)).
Proof. exact managers. Qed.
Print Assumptions C125_loaded_key_signs_partial.
Definition ex_files : file_env := {|
  fe_pem := fun d => match d with x2d :: t :: r => Some (if Byte.eqb t x70 then str "PUBLIC KEY" else str "PRIVATE KEY", r) | _ => None end;
  fe_pkcs8 := fun r => match r with x09 :: k => Some (SkEd25519 k) | x08 :: _ => Some SkOther | _ => None end;
  fe_rsa := Some [x05]; fe_p521 := None; fe_ed := Some [x07] |}.
Example C125_example :
  parse_manager_pem ex_files [x2d; x71; x09; x03] = Some (SkEd25519 [x03]) /\ parse_manager_pem ex_files [x2d; x70; x09; x03] = None /\
  parse_manager_pem ex_files [x2d; x71; x08] = None /\ generate_manager ex_files 3 = Some (SkEd25519 [x07]) /\
  generate_manager ex_files 1 = Some (SkRSA [x05]) /\ generate_manager ex_files 2 = None /\ generate_manager ex_files 9 = None /\
  exists sig, sign toy (SkEd25519 [x03]) [] SHA256 (str "hi") = KOk sig /\
    verify_signature toy (PkEd25519 (ed_pub toy [x03])) SHA256 (str "hi") sig = VOk true.
Proof. do 7 (split; [reflexivity|]). eexists. split; [reflexivity|vm_compute; reflexivity]. Qed.

(** C126 is refuted: a public key file is accepted although no signature can be
    verified with its key, for instance an X25519 key. *)
Theorem C126_loaded_key_verifies_refuted : forall C, exists E data pk, parse_fetcher_pem C E data = Some pk /\
  forall h content sig, verify_signature C pk h content sig = VErr.
Proof. exact fetcher_useless. Qed.
Print Assumptions C126_loaded_key_verifies_refuted.
(** A key is loaded exactly if the first block is a public key that parses, and it
    is that key. If it is the encoded public half of a manager's key, everything
    this manager signs is verified; with a supported key verifying never panics.
    Missing: that the loaded key is of a supported kind. *)
Theorem C126_loaded_key_verifies_partial : forall C, CryptoLaws C ->
  (forall E data pk, parse_fetcher_pem C E data = Some pk <->
     exists raw, fe_pem E data = Some (str "PUBLIC KEY", raw) /\ pkix_parse C raw = Some pk) /\
  (forall E sk alg pk raw data, fetch_key C sk = KOk (alg, pk) ->
     pkix_marshal C pk = Some raw -> pkix_parse C raw = Some pk -> fe_pem E data = Some (str "PUBLIC KEY", raw) ->
     parse_fetcher_pem C E data = Some pk /\
     forall rnd h content sig, sign C sk rnd h content = KOk sig -> verify_signature C pk h content sig = VOk true) /\
  (forall pk h content sig, supported pk -> verify_signature C pk h content sig <> VPanic).
Proof. exact fetchers. Qed.
Print Assumptions C126_loaded_key_verifies_partial.
Example C126_example :
  pkix_marshal toy (PkEd25519 (ed_pub toy [x03])) = Some (x01 :: ed_pub toy [x03]) /\
  pkix_parse toy (x01 :: ed_pub toy [x03]) = Some (PkEd25519 (ed_pub toy [x03])) /\
  parse_fetcher_pem toy ex_files (x2d :: x70 :: x01 :: ed_pub toy [x03]) = Some (PkEd25519 (ed_pub toy [x03])) /\
  parse_fetcher_pem toy ex_files (x2d :: x71 :: x01 :: ed_pub toy [x03]) = None.
Proof. repeat split. Qed.
