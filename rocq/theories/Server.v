(** /repo/internal/server and the connection loops of /repo/server.go, as
    programs over the effects other goroutines or the network can observe.

    Not modelled here: logging, and the deadlines set on the connection (their
    effect, errors returned by Read and Write, is part of the network's
    behaviour; see also Timed.v). *)
From Coq Require Import Strings.String.
From Verif Require Import Bytes Parser Crypto Kdf Wire Replay Base64.

(** Errors of conn.Write: os.ErrDeadlineExceeded or another one. *)
Inductive werr := WDeadline | WOther.

(** Result of the application handler: what it wrote, an error, or a panic. *)
Inductive hres := HOk (out : bytes) | HErr | HPanic.

(** Result of a call to the key manager. *)
Inductive kres (A : Type) := KOk (a : A) | KErr | KPanic.
Arguments KOk {A}. Arguments KErr {A}. Arguments KPanic {A}.

(** Effects. In [SHandler] and [SSeal] the session pointer and counter are
    annotations for the specifications; they are not part of the Go call. *)
Inductive seff : Type -> Type :=
| SRead (n : N) : seff (perr + bytes)                 (* io.ReadFull on the connection *)
| SCopy (n : N) : seff (bytes * option perr)          (* io.Copy of a LimitReader *)
| SAlloc (n : N) : seff unit                          (* make of an announced size *)
| SWrite (b : bytes) : seff (N * option werr)         (* conn.Write *)
| SHost : seff (option bytes)                         (* net.SplitHostPort(conn.RemoteAddr()) *)
| SGenKey : seff (option bytes)                       (* ecdh.X25519().GenerateKey *)
| SNewSession (secret : bytes) : seff nat             (* secret.NewSession *)
| SStore (key : bytes) (p : nat) : seff bool          (* secrets.Store; false: error *)
| SLoad (key : bytes) : seff (option nat)             (* secrets.Load *)
| SSecret (p : nat) : seff bytes                      (* session.Secret *)
| SCheck (p : nat) (c : N) : seff bool                (* session.Replay.CheckAndUpdate *)
| SHandler (p : nat) (c : N) (reply : bool) (msg : bytes) : seff hres
| SSeal (p : nat) (c : N) (key nonce pt : bytes) : seff bytes   (* gcm.Seal *)
| SSign (h : hash) (content : bytes) : seff (kres bytes)
| SFetchKey : seff (kres (N * pubkey))
| SQuit : seff bool.                                  (* select on the quit channel *)

Inductive sprog (A : Type) : Type :=
| SRet (a : A)
| SPanic
| SDo (R : Type) (e : seff R) (k : R -> sprog A).
Arguments SRet {A}. Arguments SPanic {A}. Arguments SDo {A R}.

Fixpoint sbind {A B} (p : sprog A) (f : A -> sprog B) : sprog B :=
  match p with
  | SRet a => f a
  | SPanic => SPanic
  | SDo e k => SDo e (fun r => sbind (k r) f)
  end.
Notation "'dos' x <- p ; q" := (sbind p (fun x => q))
  (at level 60, x pattern, p at next level, right associativity).
Definition sdo {R} (e : seff R) : sprog R := SDo e SRet.

(** Running a parser on the connection. *)
Fixpoint slift {A} (p : parser A) : sprog (perr + A) :=
  match p with
  | PRet a => SRet (inr a)
  | PFail e => SRet (inl e)
  | PRead n k => SDo (SRead n) (fun r => slift (k r))
  | PCopy n k => SDo (SCopy n) (fun r => slift (k r))
  | PAlloc n k => SDo (SAlloc n) (fun _ => slift k)
  end.

(** handler.go:92-105 *)
Definition write_error_response (resp : bytes) : sprog bool :=
  dos r <- sdo (SWrite resp);
  let '(n, err) := r in
  match err with
  | Some _ => SRet false
  | None => SRet (n =? lenN resp)
  end.

Definition msg_send : bytes := str "failed to send back action response".

(** handler.go:61-90 *)
Definition write_response (resp : bytes) : sprog bool :=
  dos r <- sdo (SWrite resp);
  let '(n, err) := r in
  match err with
  | None => SRet (n =? lenN resp)
  | Some WDeadline => SRet false
  | Some WOther =>
      if 0 <? n then SRet false
      else write_error_response (enc_error_resp (new_error_response code_server_error msg_send))
  end.

(** Sending an error and returning: [true] is a nil error, [false]
    io.ErrShortWrite. *)
Definition reply_error (code : N) (msg : bytes) : sprog bool :=
  write_error_response (enc_error_resp (new_error_response code msg)).

Definition msg_parse := str "failed to parse data of the request".
Definition msg_genkey := str "failed to generate private key".
Definition msg_shared := str "failed to generate shared secret".
Definition msg_host := str "failed to split host and port".
Definition msg_store := str "failed to store shared secret".
Definition msg_sign := str "failed to sign response".
Definition msg_unknown := str "could not find a shared secret matching the given ID".
Definition msg_replay := str "message counter was already seen or is too old".
Definition msg_derive := str "failed to derive encryption key".
Definition msg_decrypt := str "failed to decrypt message".
Definition msg_handle := str "failed to handle message".
Definition msg_fetch := str "failed to fetch public key".
Definition msg_encode := str "failed to encode public key".

(** action_setup.go:56-115 and action_process.go:30-89: the key under which a
    session is stored (writing to a hash never fails). *)
Definition session_key (C : Crypto) (host id : bytes) : bytes := base64 (sha256 C (host ++ id)).

(** action_setup.go:30-164, after parsing. *)
Definition setup_after (C : Crypto) (m : setup_req) : sprog bool :=
  dos sk <- sdo SGenKey;
  match sk with
  | None => reply_error code_malformed msg_genkey
  | Some sk =>
      match x_dh C sk (sr_pub m) with
      | None => reply_error code_malformed msg_shared
      | Some shared =>
          dos host <- sdo SHost;
          match host with
          | None => reply_error code_server_error msg_host
          | Some host =>
              dos p <- sdo (SNewSession shared);
              dos ok <- sdo (SStore (session_key C host (sr_id m)) p);
              if negb ok then reply_error code_server_error msg_store
              else
                let transcript := setup_transcript (sr_pub m) (x_pub C sk) (sr_id m) in
                dos sg <- sdo (SSign SHA512 transcript);
                match sg with
                | KPanic => SPanic
                | KErr => reply_error code_server_error msg_sign
                | KOk sig =>
                    match new_hash_type SHA512 with
                    | None => SPanic
                    | Some ht =>
                        write_response (enc_setup_resp (new_setup_response (x_pub C sk) ht sig))
                    end
                end
          end
      end
  end.

(** action_setup.go:16-165 *)
Definition setup_handler (C : Crypto) (rc : req_common) : sprog bool :=
  dos r <- slift (parse_setup_req C rc);
  match r with
  | inl _ => reply_error code_malformed msg_parse
  | inr m => setup_after C m
  end.

(** action_process.go:30-201, after parsing. *)
Definition process_after (C : Crypto) (m : process_req) : sprog bool :=
  dos host <- sdo SHost;
  match host with
  | None => reply_error code_server_error msg_host
  | Some host =>
      dos sp <- sdo (SLoad (session_key C host (pr_id m)));
      match sp with
      | None => reply_error code_unknown_client msg_unknown
      | Some p =>
          dos fresh <- sdo (SCheck p (pr_counter m));
          if negb fresh then reply_error code_replay msg_replay
          else
            dos secret <- sdo (SSecret p);
            match new_gcm C secret with
            | None => reply_error code_server_error msg_derive
            | Some key =>
                match gcm_open C key (gcm_nonce dir_c2s (pr_counter m)) (pr_msg m) with
                | None => reply_error code_server_error msg_decrypt
                | Some message =>
                    dos hr <- sdo (SHandler p (pr_counter m) (pr_reply m) message);
                    match hr with
                    | HPanic => SPanic
                    | HErr => reply_error code_server_error msg_handle
                    | HOk out =>
                        if pr_reply m then
                          dos ct <- sdo (SSeal p (pr_counter m) key
                                           (gcm_nonce dir_s2c (pr_counter m)) out);
                          write_response (enc_process_resp (new_process_response (pr_counter m) ct))
                        else SRet true
                    end
                end
            end
      end
  end.

(** action_process.go:16-202 *)
Definition process_handler (C : Crypto) (rc : req_common) : sprog bool :=
  dos r <- slift (parse_process_req rc);
  match r with
  | inl _ => reply_error code_malformed msg_parse
  | inr m => process_after C m
  end.

(** action_fetch_key.go:10-43 *)
Definition fetch_key_handler (C : Crypto) : sprog bool :=
  dos r <- sdo SFetchKey;
  match r with
  | KPanic => SPanic
  | KErr => reply_error code_server_error msg_fetch
  | KOk (alg, pk) =>
      match pkix_marshal C pk with
      | None => reply_error code_server_error msg_encode
      | Some raw => write_response (enc_fetch_resp (new_fetch_response alg raw))
      end
  end.

(** handler.go:44-59 [Handle]: [true] is a nil error. *)
Definition handle (C : Crypto) (rc : req_common) : sprog bool :=
  if rq_action rc =? action_hello then write_response (enc_resp_common hello_response)
  else if rq_action rc =? action_setup then setup_handler C rc
  else if rq_action rc =? action_process then process_handler C rc
  else if rq_action rc =? action_fetch_key then fetch_key_handler C
  else SRet true.

(** server.go:206-232, 306-332: one request. [false] ends the connection. *)
Definition one_request (C : Crypto) : sprog bool :=
  dos r <- slift parse_req_common;
  match r with
  | inl _ => SRet false
  | inr rc => if rq_version rc =? version1 then handle C rc else SRet false
  end.

(** server.go:187-233: one iteration of the connection loop. *)
Definition conn_body (C : Crypto) : sprog bool :=
  dos q <- sdo SQuit;
  if q then SRet false else one_request C.
