(** /repo/client.go and /repo/internal/client/uuid.go, as programs over the
    effects other goroutines or the network can observe.

    Not modelled: name resolution and dialling (the connection is given), the
    text of errors, keep-alive. Setting a deadline is an effect that may fail;
    its consequence, errors of later reads and writes, is part of the network's
    behaviour. Fields of a Client shared between goroutines are read and written
    in single steps. *)
From Verif Require Import Bytes Parser Crypto Kdf Wire Server Keys.

Inductive ceff : Type -> Type :=
| CRead (n : N) : ceff (perr + bytes)                 (* io.ReadFull on the connection *)
| CCopy (n : N) : ceff (bytes * option perr)          (* io.Copy of a LimitReader *)
| CAlloc (n : N) : ceff unit                          (* make of an announced size *)
| CWrite (b : bytes) : ceff (N * bool)                (* conn.Write; true: error *)
| CDeadline : ceff bool                               (* conn.SetXDeadline; false: error *)
| CFetch (host : bytes) : ceff (option pubkey)        (* keyFetcher.Fetch *)
| CRand : ceff (option bytes)                         (* io.ReadFull(rand.Reader, [16]byte) *)
| CGen : ceff (option bytes)                          (* ecdh.X25519().GenerateKey *)
| CAdd : ceff N                                       (* session.sendCounter.Add(1) *)
| CSetLast (c : N) : ceff unit                        (* c.lastSentCounter = counter *)
| CGetLast : ceff N
| CGetBuf : ceff bytes                                (* c.buffer *)
| CSetBuf (b : bytes) : ceff unit
| CSeal (c : N) (key nonce pt : bytes) : ceff bytes.  (* gcm.Seal; [c] is an annotation *)

Inductive cprog (A : Type) : Type :=
| CRet (a : A)
| CPanic
| CDo (R : Type) (e : ceff R) (k : R -> cprog A).
Arguments CRet {A}. Arguments CPanic {A}. Arguments CDo {A R}.

Fixpoint cbind {A B} (p : cprog A) (f : A -> cprog B) : cprog B :=
  match p with
  | CRet a => f a
  | CPanic => CPanic
  | CDo e k => CDo e (fun r => cbind (k r) f)
  end.
Notation "'doc' x <- p ; q" := (cbind p (fun x => q))
  (at level 60, x pattern, p at next level, right associativity).
Definition cdo {R} (e : ceff R) : cprog R := CDo e CRet.

Fixpoint clift {A} (p : parser A) : cprog (perr + A) :=
  match p with
  | PRet a => CRet (inr a)
  | PFail e => CRet (inl e)
  | PRead n k => CDo (CRead n) (fun r => clift (k r))
  | PCopy n k => CDo (CCopy n) (fun r => clift (k r))
  | PAlloc n k => CDo (CAlloc n) (fun _ => clift k)
  end.

(** internal/client/uuid.go:39-50 [UUID], from the 16 random octets. *)
Definition set_nth (i : nat) (b : byte) (l : bytes) : bytes := firstn i l ++ [b] ++ skipn (S i) l.
Definition uuid_of (r : bytes) : bytes :=
  let r6 := set_nth 6 (n2b (N.lor (N.land (b2n (nth 6 r x00)) 0x0f) 0x40)) r in
  set_nth 8 (n2b (N.lor (N.land (b2n (nth 8 r6 x00)) 0x3f) 0x80)) r6.

(** client.go:26-40 [newGCM]: the client's AES key. *)
Definition client_gcm (C : Crypto) (secret : bytes) : option bytes :=
  match derive_key C secret kdf_info aes_key_size with
  | None => None
  | Some k =>
      if ((length k =? 16) || (length k =? 24) || (length k =? 32))%nat then Some k else None
  end.

(** client.go:125-137: the fields set when dialling. *)
Record copts := { co_rto : bool; co_wto : bool; co_reply : bool }.
(** client.go:114-121 [clientSession], without the counter. *)
Record csession := { cs_secret : bytes; cs_id : bytes }.

Inductive hs_error :=
| HsHost | HsFetch | HsRand | HsGen | HsSend | HsParse (e : perr)
| HsRefused (code : N) (msg : bytes) | HsVerify | HsSignature | HsSecret.

(** client.go:227-307 [handshake]; [host] is the result of SplitHostPort. *)
Definition handshake (C : Crypto) (host : option bytes) : cprog (hs_error + csession) :=
  match host with
  | None => CRet (inl HsHost)
  | Some host =>
      doc pk <- cdo (CFetch host);
      match pk with
      | None => CRet (inl HsFetch)
      | Some pk =>
          doc rnd <- cdo CRand;
          match rnd with
          | None => CRet (inl HsRand)
          | Some rnd =>
              let id := uuid_of rnd in
              doc sk <- cdo CGen;
              match sk with
              | None => CRet (inl HsGen)
              | Some sk =>
                  let req := enc_setup_req (new_setup_request id (x_pub C sk)) in
                  doc w <- cdo (CWrite req);
                  let '(n, err) := w in
                  if err then CRet (inl HsSend)
                  else if negb (n =? lenN req) then CRet (inl HsSend)
                  else
                    doc rc <- clift parse_resp_common;
                    match rc with
                    | inl e => CRet (inl (HsParse e))
                    | inr rc =>
                        if negb (rs_success rc) then
                          doc er <- clift (parse_error_resp rc);
                          match er with
                          | inl e => CRet (inl (HsParse e))
                          | inr er => CRet (inl (HsRefused (er_code er) (er_msg er)))
                          end
                        else
                          doc ss <- clift (parse_setup_resp C rc);
                          match ss with
                          | inl e => CRet (inl (HsParse e))
                          | inr ss =>
                              let transcript := setup_transcript (x_pub C sk) (ss_pub ss) id in
                              match crypto_hash (ss_hash ss) with
                              | None => CPanic
                              | Some h =>
                                  match verify_signature C pk h transcript (ss_sig ss) with
                                  | VPanic => CPanic
                                  | VErr => CRet (inl HsVerify)
                                  | VOk false => CRet (inl HsSignature)
                                  | VOk true =>
                                      match x_dh C sk (ss_pub ss) with
                                      | None => CRet (inl HsSecret)
                                      | Some secret =>
                                          CRet (inr {| cs_secret := secret; cs_id := id |})
                                      end
                                  end
                              end
                          end
                    end
              end
          end
      end
  end.

Inductive rd_error :=
| RdDeadline | RdParse (e : perr) | RdRemote (code : N) (msg : bytes) | RdCounter | RdKey | RdDecrypt
| RdBuffer.    (* "failed to read data from buffer: EOF" *)
(** Result of Read: the octets copied into p with a nil error or io.EOF, or no
    octets and another error. *)
Inductive rd_result := RdOk (data : bytes) (eof : bool) | RdErr (e : rd_error).

(** bytes.Buffer.Read into a slice of length [n], then the closure of
    client.go:326-331, 381-386. *)
Definition buffer_read (buf : bytes) (n : N) : option (bytes * bytes) :=
  match buf with
  | [] => if n =? 0 then Some ([], []) else None
  | _ => Some (takeN n buf, dropN n buf)
  end.
Definition read_buffered (buf : bytes) (n : N) : cprog rd_result :=
  match buffer_read buf n with
  | None => CRet (RdErr RdBuffer)
  | Some (data, rest) =>
      doc _ <- cdo (CSetBuf rest);
      CRet (RdOk data (lenN rest =? 0))
  end.

(** client.go:310-387 [Read] into a slice of length [n]. *)
Definition client_read (C : Crypto) (o : copts) (s : csession) (n : N) : cprog rd_result :=
  doc ok <- (if co_rto o then cdo CDeadline else CRet true);
  if negb ok then CRet (RdErr RdDeadline)
  else
    doc buf <- cdo CGetBuf;
    if 0 <? lenN buf then read_buffered buf n
    else
      doc rc <- clift parse_resp_common;
      match rc with
      | inl e => CRet (RdErr (RdParse e))
      | inr rc =>
          if negb (rs_success rc) then
            doc er <- clift (parse_error_resp rc);
            match er with
            | inl e => CRet (RdErr (RdParse e))
            | inr er => CRet (RdErr (RdRemote (er_code er) (er_msg er)))
            end
          else
            doc r <- clift (parse_process_resp rc);
            match r with
            | inl e => CRet (RdErr (RdParse e))
            | inr r =>
                doc last <- cdo CGetLast;
                if negb (ps_counter r =? last) then CRet (RdErr RdCounter)
                else
                  match client_gcm C (cs_secret s) with
                  | None => CRet (RdErr RdKey)
                  | Some key =>
                      match gcm_open C key (gcm_nonce dir_s2c (ps_counter r)) (ps_msg r) with
                      | None => CRet (RdErr RdDecrypt)
                      | Some message =>
                          doc buf <- cdo CGetBuf;
                          doc _ <- cdo (CSetBuf (buf ++ message));
                          doc buf <- cdo CGetBuf;
                          read_buffered buf n
                      end
                  end
            end
      end.

(** Result of Write: (n, err) of the connection, or an error before it. *)
Inductive wr_result := WrConn (n : N) (err : bool) | WrDeadline | WrKey | WrExhausted.

(** client.go:390-416 [Write] *)
Definition client_write (C : Crypto) (o : copts) (s : csession) (p : bytes) : cprog wr_result :=
  doc ok <- (if co_wto o then cdo CDeadline else CRet true);
  if negb ok then CRet WrDeadline
  else
    match client_gcm C (cs_secret s) with
    | None => CRet WrKey
    | Some key =>
        doc c <- cdo CAdd;
        if c =? 0 then CRet WrExhausted
        else
          doc _ <- cdo (CSetLast c);
          doc ct <- cdo (CSeal c key (gcm_nonce dir_c2s c) p);
          doc w <- cdo (CWrite (enc_process_req (new_process_request (cs_id s) c ct (co_reply o))));
          CRet (WrConn (fst w) (snd w))
    end.
