(** /repo/protocol: message encoders and parsers, constant by constant and field
    by field. *)
From Verif Require Import Bytes Parser Crypto.

(** limits.go:8-20 *)
Definition max_key_size : N := 2 ^ 16.
Definition max_signature_size : N := 2 ^ 16.
Definition max_message_size : N := 2 ^ 30.

(** request.go:13-15 *)
Definition version1 : N := 1.

(** action.go:7-12 *)
Definition action_hello : N := 1.
Definition action_setup : N := 2.
Definition action_process : N := 3.
Definition action_fetch_key : N := 4.

(** ** Request header *)

(** request.go:18-21 [RequestCommon]; both fields are uint8. *)
Record req_common := { rq_version : N; rq_action : N }.

(** request.go:45-49 [RequestCommon.Bytes] *)
Definition enc_req_common (r : req_common) : bytes :=
  [n2b (N.lor ((N.shiftl (rq_version r) 4) mod 256) (rq_action r))].

(** A one octet field read with io.Copy over a LimitReader, as at
    request.go:28-37, response.go:20-29 and action_003_process.go:73-82. *)
Definition pcopy1 : parser byte :=
  PCopy 1 (fun r =>
    let '(m, err) := r in
    match err with
    | Some e => PFail e
    | None => match m with
              | [] => PFail EShort
              | [b] => PRet b
              | _ => PFail ESize
              end
    end).

(** request.go:25-42 [ParseRequestCommon] *)
Definition parse_req_common : parser req_common :=
  dop b <- pcopy1;
  PRet {| rq_version := N.shiftr (N.land (b2n b) 0xF0) 4;
          rq_action := N.land (b2n b) 0x0F |}.

(** ** Response header *)

(** response.go:10-13 [ResponseCommon] *)
Record resp_common := { rs_success : bool; rs_reserved : N }.

(** response.go:37-45 [ResponseCommon.Bytes] *)
Definition enc_resp_common (r : resp_common) : bytes :=
  if rs_success r then [n2b (N.lor ((N.shiftl 1 7) mod 256) (rs_reserved r))]
  else [n2b (N.lor 0 (rs_reserved r))].

(** response.go:17-34 [ParseResponseCommon] *)
Definition parse_resp_common : parser resp_common :=
  dop b <- pcopy1;
  PRet {| rs_success := N.shiftr (b2n b) 7 =? 1;
          rs_reserved := N.shiftr ((N.shiftl (b2n b) 1) mod 256) 1 |}.

(** ** Hello: action_001_hello.go:5-32 *)
Definition hello_request : req_common :=
  {| rq_version := version1; rq_action := action_hello |}.
Definition hello_response : resp_common := {| rs_success := true; rs_reserved := 0 |}.

(** ** Setup *)

(** action_002_setup.go:17-21 and 24-35: hash type octets; [None] is the panic. *)
Definition new_hash_type (h : hash) : option N :=
  match h with
  | SHA256 => Some 2 | SHA384 => Some 3 | SHA512 => Some 4 | HOther _ => None
  end.

(** action_002_setup.go:51-61 [HashType.CryptoHash]; [None] is the panic. *)
Definition crypto_hash (h : N) : option hash :=
  if h =? 2 then Some SHA256
  else if h =? 3 then Some SHA384
  else if h =? 4 then Some SHA512
  else None.

(** action_002_setup.go:67-84 [SetupTranscript] (marshalling an X25519 key cannot
    fail). *)
Definition setup_transcript (client_pub server_pub id : bytes) : bytes :=
  let cb := pkix_x25519 client_pub in
  let sb := pkix_x25519 server_pub in
  be_enc 4 (lenN cb mod two32) ++ cb ++ be_enc 4 (lenN sb mod two32) ++ sb ++ id.

(** action_002_setup.go:88-93 [SetupRequest]; the public key is the 32 octet
    X25519 key inside the *ecdh.PublicKey. *)
Record setup_req := { sr_common : req_common; sr_id : bytes; sr_pub : bytes }.

(** action_002_setup.go:96-105 [NewSetupRequest] *)
Definition new_setup_request (id pub : bytes) : setup_req :=
  {| sr_common := {| rq_version := version1; rq_action := action_setup |};
     sr_id := id; sr_pub := pub |}.

(** action_002_setup.go:154-165 [SetupRequest.Bytes] *)
Definition enc_setup_req (s : setup_req) : bytes :=
  let pk := pkix_x25519 (sr_pub s) in
  enc_req_common (sr_common s) ++ sr_id s ++ be_enc 4 (lenN pk mod two32) ++ pk.

(** x509.ParsePKIXPublicKey followed by the assertion to *ecdh.PublicKey
    (action_002_setup.go:140-148, 223-231). *)
Definition parse_ecdh (C : Crypto) (b : bytes) : parser bytes :=
  match pkix_parse C b with
  | Some (PkX25519 k) => PRet k
  | _ => PFail EKey
  end.

(** action_002_setup.go:109-151 [ParseSetupRequest] *)
Definition parse_setup_req (C : Crypto) (rc : req_common) : parser setup_req :=
  dop id <- pread 16;
  dop sz <- pread 4;
  if max_key_size <? be_dec sz then PFail ELimit
  else
    dop _ <- palloc (be_dec sz);
    dop raw <- pread (be_dec sz);
    dop k <- parse_ecdh C raw;
    PRet {| sr_common := rc; sr_id := id; sr_pub := k |}.

(** action_002_setup.go:179-185 [SetupResponse] *)
Record setup_resp := {
  ss_common : resp_common; ss_pub : bytes; ss_hash : N; ss_sig : bytes }.

(** action_002_setup.go:188-195 and 291-294: NewSetupResponse, SetSignature *)
Definition new_setup_response (pub : bytes) (h : N) (sig : bytes) : setup_resp :=
  {| ss_common := {| rs_success := true; rs_reserved := 0 |};
     ss_pub := pub; ss_hash := h; ss_sig := sig |}.

(** action_002_setup.go:263-278 [SetupResponse.Bytes] *)
Definition enc_setup_resp (s : setup_resp) : bytes :=
  let pk := pkix_x25519 (ss_pub s) in
  enc_resp_common (ss_common s) ++ be_enc 4 (lenN pk mod two32) ++ pk ++
  (if 0 <? lenN (ss_sig s) then
     [n2b (ss_hash s)] ++ be_enc 4 (lenN (ss_sig s) mod two32) ++ ss_sig s
   else []).

(** action_002_setup.go:199-260 [ParseSetupResponse] *)
Definition parse_setup_resp (C : Crypto) (rc : resp_common) : parser setup_resp :=
  dop sz <- pread 4;
  if max_key_size <? be_dec sz then PFail ELimit
  else
    dop _ <- palloc (be_dec sz);
    dop raw <- pread (be_dec sz);
    dop k <- parse_ecdh C raw;
    dop h <- pread 1;
    dop ssz <- pread 4;
    if max_signature_size <? be_dec ssz then PFail ELimit
    else
      dop _ <- palloc (be_dec ssz);
      dop sig <- pread (be_dec ssz);
      PRet {| ss_common := rc; ss_pub := k; ss_hash := be_dec h; ss_sig := sig |}.

(** ** Process *)

(** action_003_process.go:26-35 [ProcessRequest] *)
Record process_req := {
  pr_common : req_common; pr_reply : bool; pr_reserved : N;
  pr_id : bytes; pr_counter : N; pr_size : N; pr_msg : bytes }.

(** action_003_process.go:40-63 [NewProcessRequest] *)
Definition new_process_request (id : bytes) (ctr : N) (msg : bytes) (reply : bool) : process_req :=
  {| pr_common := {| rq_version := version1; rq_action := action_process |};
     pr_reply := reply; pr_reserved := 0; pr_id := id; pr_counter := ctr;
     pr_size := lenN msg; pr_msg := msg |}.

(** action_003_process.go:123-135 [ProcessRequest.Bytes] *)
Definition enc_process_req (g : process_req) : bytes :=
  let flags := N.shiftr ((N.shiftl (pr_reserved g) 1) mod 256) 1 in
  let flags := if pr_reply g then N.lor flags (N.shiftl 1 7) else flags in
  enc_req_common (pr_common g) ++ [n2b flags] ++ pr_id g ++
  be_enc 8 (pr_counter g) ++ be_enc 8 (pr_size g) ++ pr_msg g.

(** action_003_process.go:68-120 [ParseProcessRequest] *)
Definition parse_process_req (rc : req_common) : parser process_req :=
  dop f <- pcopy1;
  dop id <- pread 16;
  dop ctr <- pread 8;
  dop sz <- pread 8;
  if max_message_size <? be_dec sz then PFail ELimit
  else
    dop _ <- palloc (be_dec sz);
    dop msg <- pread (be_dec sz);
    PRet {| pr_common := rc;
            pr_reply := N.shiftr (N.land (b2n f) 0xF0) 7 =? 1;
            pr_reserved := N.land (N.shiftr ((N.shiftl (b2n f) 1) mod 256) 1) 0xFF;
            pr_id := id; pr_counter := be_dec ctr; pr_size := be_dec sz; pr_msg := msg |}.

(** action_003_process.go:160-166 [ProcessResponse] *)
Record process_resp := {
  ps_common : resp_common; ps_counter : N; ps_size : N; ps_msg : bytes }.

(** action_003_process.go:170-179 [NewProcessResponse] *)
Definition new_process_response (ctr : N) (msg : bytes) : process_resp :=
  {| ps_common := {| rs_success := true; rs_reserved := 0 |};
     ps_counter := ctr; ps_size := lenN msg; ps_msg := msg |}.

(** action_003_process.go:217-223 [ProcessResponse.Bytes] *)
Definition enc_process_resp (g : process_resp) : bytes :=
  enc_resp_common (ps_common g) ++ be_enc 8 (ps_counter g) ++
  be_enc 8 (ps_size g) ++ ps_msg g.

(** action_003_process.go:183-214 [ParseProcessResponse] *)
Definition parse_process_resp (rc : resp_common) : parser process_resp :=
  dop ctr <- pread 8;
  dop sz <- pread 8;
  if max_message_size <? be_dec sz then PFail ELimit
  else
    dop _ <- palloc (be_dec sz);
    dop msg <- pread (be_dec sz);
    PRet {| ps_common := rc; ps_counter := be_dec ctr; ps_size := be_dec sz; ps_msg := msg |}.

(** ** Fetch key *)

(** action_004_fetch_key.go:13-17 *)
Definition alg_rsa : N := 1.
Definition alg_ecdsa : N := 2.
Definition alg_ed25519 : N := 3.

(** action_004_fetch_key.go:39-46 [NewFetchKeyRequest] *)
Definition fetch_key_request : req_common :=
  {| rq_version := version1; rq_action := action_fetch_key |}.

(** action_004_fetch_key.go:50-56 [FetchKeyResponse] *)
Record fetch_resp := {
  fk_common : resp_common; fk_alg : N; fk_size : N; fk_key : bytes }.

(** action_004_fetch_key.go:59-68 [NewFetchKeyResponse] *)
Definition new_fetch_response (alg : N) (key : bytes) : fetch_resp :=
  {| fk_common := {| rs_success := true; rs_reserved := 0 |};
     fk_alg := alg; fk_size := lenN key; fk_key := key |}.

(** action_004_fetch_key.go:105-111 [FetchKeyResponse.Bytes] *)
Definition enc_fetch_resp (g : fetch_resp) : bytes :=
  enc_resp_common (fk_common g) ++ [n2b (fk_alg g)] ++ be_enc 8 (fk_size g) ++ fk_key g.

(** action_004_fetch_key.go:71-102 [ParseFetchKeyResponse] *)
Definition parse_fetch_resp (rc : resp_common) : parser fetch_resp :=
  dop alg <- pread 1;
  dop sz <- pread 8;
  if max_key_size <? be_dec sz then PFail ELimit
  else
    dop _ <- palloc (be_dec sz);
    dop key <- pread (be_dec sz);
    PRet {| fk_common := rc; fk_alg := be_dec alg; fk_size := be_dec sz; fk_key := key |}.

(** ** Errors *)

(** error.go:14-20 *)
Definition code_malformed : N := 1.
Definition code_server_error : N := 2.
Definition code_unknown_client : N := 3.
Definition code_unsupported_version : N := 4.
Definition code_replay : N := 5.

(** error.go:24-29 [ErrorResponse]; the message is a Go string, i.e. octets. *)
Record error_resp := { er_common : resp_common; er_code : N; er_msg : bytes }.

(** error.go:32-40 [NewErrorResponse] *)
Definition new_error_response (code : N) (msg : bytes) : error_resp :=
  {| er_common := {| rs_success := false; rs_reserved := 0 |}; er_code := code; er_msg := msg |}.

(** error.go:79-85 [ErrorResponse.Bytes] *)
Definition enc_error_resp (e : error_resp) : bytes :=
  enc_resp_common (er_common e) ++ be_enc 4 (er_code e mod two32) ++
  be_enc 8 (lenN (er_msg e) mod two64) ++ er_msg e.

(** io.LimitReader(r, int64(size)): a size of 2^63 or more becomes negative, and
    a LimitedReader with a negative limit reports EOF at once. *)
Definition limit_of_size (size : N) : N := if size <? two63 then size else 0.

(** error.go:43-76 [ParseErrorResponse] *)
Definition parse_error_resp (rc : resp_common) : parser error_resp :=
  dop code <- pread 4;
  dop sz <- pread 8;
  let size := be_dec sz in
  if 0 <? size then
    PCopy (limit_of_size size) (fun r =>
      match r with
      | (_, Some e) => PFail e
      | (m, None) =>
          if (size <? two63) && (lenN m =? size)
          then PRet {| er_common := rc; er_code := be_dec code; er_msg := m |}
          else PFail ESize
      end)
  else PRet {| er_common := rc; er_code := be_dec code; er_msg := [] |}.

(** ** Nonce: nonce.go:18-23; [None] is the run-time panic on a size below 8
    (nonce.go:8-11 gives the directions). *)
Definition dir_c2s : byte := x00.
Definition dir_s2c : byte := x01.
Definition nonce (dir : byte) (ctr : N) (size : N) : option bytes :=
  if size <? 8 then None
  else
    let b := dir :: repeat x00 (N.to_nat (size - 1)) in
    Some (firstn (N.to_nat (size - 8)) b ++ be_enc 8 ctr).

(** The nonces actually used (12 octets, gcm.NonceSize()). *)
Definition gcm_nonce (dir : byte) (ctr : N) : bytes :=
  match nonce dir ctr gcm_nonce_size with Some n => n | None => [] end.
