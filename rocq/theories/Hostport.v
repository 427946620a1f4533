(** Addresses and the fetchers that use them: net.SplitHostPort and
    net.JoinHostPort as Go's net package has them (called at /repo/client.go:228,
    /repo/internal/server/action_setup.go:59, action_process.go:33), the text of a
    remote address, /repo/key/client_fetcher.go:135-163 (the key of a TLS
    certificate) and 271-296 (a key from a PEM file), and
    /repo/key/server_manager.go:31-91 (where the server's key comes from).

    Not modelled: the resolver, the TLS handshake and its verification of the
    chain, PEM and PKCS #8 decoding, key generation; they are answers of the
    environment. The text of an IP address (net.IP.String) is given. *)
From Coq Require Import Strings.String.
From Verif Require Import Bytes Crypto Kdf Wire Server Keys.

Definition colon : byte := x3a.
Definition lbracket : byte := x5b.
Definition rbracket : byte := x5d.

(** bytealg.IndexByteString, bytealg.LastIndexByteString *)
Fixpoint index (b : byte) (s : bytes) : option nat :=
  match s with
  | [] => None
  | c :: r => if Byte.eqb c b then Some O else option_map S (index b r)
  end.
Fixpoint last_index (b : byte) (s : bytes) : option nat :=
  match s with
  | [] => None
  | c :: r => match last_index b r with
              | Some i => Some (S i)
              | None => if Byte.eqb c b then Some O else None
              end
  end.
Definition has (b : byte) (s : bytes) : bool := match index b s with Some _ => true | None => false end.

(** net.SplitHostPort; the various errors are [None]. *)
Definition split_host_port (hp : bytes) : option (bytes * bytes) :=
  match last_index colon hp with
  | None => None
  | Some i =>
      if match hp with c :: _ => Byte.eqb c lbracket | [] => false end then
        match index rbracket hp with
        | None => None
        | Some e =>
            if Nat.eqb (S e) i then
              if has lbracket (skipn 1 hp) then None
              else if has rbracket (skipn (S e) hp) then None
              else Some (skipn 1 (firstn e hp), skipn (S i) hp)
            else None
        end
      else
        let host := firstn i hp in
        if has colon host then None
        else if has lbracket hp then None
        else if has rbracket hp then None
        else Some (host, skipn (S i) hp)
  end.
(** net.JoinHostPort *)
Definition join_host_port (host port : bytes) : bytes :=
  if has colon host then lbracket :: host ++ [rbracket; colon] ++ port
  else host ++ colon :: port.

(** strconv.FormatUint(n, 10), strconv.Itoa *)
Fixpoint digits (u : Decimal.uint) : bytes :=
  match u with
  | Decimal.Nil => []
  | Decimal.D0 u => x30 :: digits u | Decimal.D1 u => x31 :: digits u
  | Decimal.D2 u => x32 :: digits u | Decimal.D3 u => x33 :: digits u
  | Decimal.D4 u => x34 :: digits u | Decimal.D5 u => x35 :: digits u
  | Decimal.D6 u => x36 :: digits u | Decimal.D7 u => x37 :: digits u
  | Decimal.D8 u => x38 :: digits u | Decimal.D9 u => x39 :: digits u
  end.
Definition fmt_uint (n : N) : bytes := digits (N.to_uint n).

(** net.TCPAddr.String and net.UDPAddr.String of an address with the IP text [ip]. *)
Definition addr_string (ip zone : bytes) (port : N) : bytes :=
  join_host_port (match zone with [] => ip | _ => ip ++ x25 :: zone end) (fmt_uint port).
(** The host the server uses for a peer (action_setup.go:59, action_process.go:33). *)
Definition host_of (remote : bytes) : option bytes := option_map fst (split_host_port remote).

(** * Fetching the key of a TLS certificate *)
Record cert := { ct_names : bytes -> bool; ct_not_before : Z; ct_not_after : Z; ct_key : pubkey }.
(** What tls.Dial("tcp", addr) yields, given host and port of [addr]: the verified
    chain of the peer; whether Close succeeds; the clock, reading by reading. An
    address without host and port is refused by the dialler. *)
Record tls_env := { te_dial : bytes -> bytes -> option (list cert); te_close : bool; te_now : nat -> Z }.
Definition tls_dial (E : tls_env) (addr : bytes) : option (list cert) :=
  match split_host_port addr with
  | None => None
  | Some (h, p) => te_dial E h p
  end.
Inductive tls_result := TlsPanic | TlsOk (k : pubkey) | TlsErr.
(** client_fetcher.go:135-163 *)
Definition tls_addr (host : bytes) (port : N) : bytes := host ++ str ":" ++ fmt_uint port.
Definition tls_fetch (E : tls_env) (port : N) (host : bytes) : tls_result :=
  match tls_dial E (tls_addr host port) with
  | None => TlsErr
  | Some [] => TlsPanic                             (* PeerCertificates[0] *)
  | Some (c :: _) =>
      if negb (ct_names c host) then TlsErr
      else if (ct_not_after c <? te_now E 0)%Z then TlsErr
      else if (te_now E 1 <? ct_not_before c)%Z then TlsErr
      else if te_close E then TlsOk (ct_key c) else TlsErr
  end.

(** * Keys from files, and new ones *)
(** pem.Decode: the type of the first block and its octets; x509.ParsePKCS8PrivateKey;
    the generators of the three kinds of keys. *)
Record file_env := {
  fe_pem : bytes -> option (bytes * bytes); fe_pkcs8 : bytes -> option privkey;
  fe_rsa : option bytes; fe_p521 : option bytes; fe_ed : option bytes }.
(** client_fetcher.go:271-296 [ParseClientFetcherPEM]; what its Fetch answers. *)
Definition parse_fetcher_pem (C : Crypto) (E : file_env) (data : bytes) : option pubkey :=
  match fe_pem E data with
  | None => None
  | Some (ty, raw) => if bytes_eqb ty (str "PUBLIC KEY") then pkix_parse C raw else None
  end.
(** server_manager.go:41-66 [ServerManagerParsePEM] *)
Definition parse_manager_pem (E : file_env) (data : bytes) : option privkey :=
  match fe_pem E data with
  | None => None
  | Some (ty, raw) =>
      if bytes_eqb ty (str "PRIVATE KEY") then
        match fe_pkcs8 E raw with
        | Some SkOther => None
        | r => r
        end
      else None
  end.
(** server_manager.go:70-91 [ServerManagerGenerateOnTheFly] *)
Definition generate_manager (E : file_env) (alg : N) : option privkey :=
  if alg =? alg_rsa then option_map SkRSA (fe_rsa E)
  else if alg =? alg_ecdsa then option_map SkECDSA (fe_p521 E)
  else if alg =? alg_ed25519 then option_map SkEd25519 (fe_ed E)
  else None.
