(** What callers do with a client: io.ReadAll and io.ReadFull on it, io.Copy to
    it (Go's io package), and /repo/key/client_fetcher.go:186-252, which fetches a
    key over the protocol.

    Not modelled: name resolution and dialling in Fetch (the connection is given),
    and the text of errors. *)
From Verif Require Import Bytes Parser Crypto Wire Keys Client.

(** io.ReadAll: Reads into the free part of a growing slice until an error;
    io.EOF is success. [size k] is the room left with [k] Reads to go; [None]: not
    finished. *)
Fixpoint read_all (C : Crypto) (o : copts) (ses : csession) (size : nat -> N) (k : nat) (acc : bytes)
  : cprog (option (bytes * option rd_error)) :=
  match k with
  | O => CRet None
  | S k' =>
      doc r <- client_read C o ses (size k');
      match r with
      | RdErr e => CRet (Some (acc, Some e))
      | RdOk d true => CRet (Some (acc ++ d, None))
      | RdOk d false => read_all C o ses size k' (acc ++ d)
      end
  end.

(** io.ReadFull (io.ReadAtLeast) into a slice of [n] octets: Reads into what is left of it
    until it is full or there is an error. An error with the octet that fills
    it is dropped; io.EOF before becomes io.ErrUnexpectedEOF (or stays io.EOF if
    nothing was read). *)
Inductive full_error := FullEOF | FullUnexpected | FullOther (e : rd_error).
Fixpoint read_full (C : Crypto) (o : copts) (ses : csession) (n : N) (k : nat) (acc : bytes)
  : cprog (option (bytes * option full_error)) :=
  if n <=? lenN acc then CRet (Some (acc, None))
  else
    match k with
    | O => CRet None
    | S k' =>
        doc r <- client_read C o ses (n - lenN acc);
        match r with
        | RdErr e => CRet (Some (acc, Some (FullOther e)))
        | RdOk d true =>
            let acc := acc ++ d in
            if n <=? lenN acc then CRet (Some (acc, None))
            else CRet (Some (acc, Some (if lenN acc =? 0 then FullEOF else FullUnexpected)))
        | RdOk d false => read_full C o ses n k' (acc ++ d)
        end
    end.

(** io.Copy to a client from a source whose Reads yield the octets [ps], not
    empty, and then io.EOF (no WriterTo): the number of octets written, the
    error. *)
Inductive copy_error := CopyInvalid | CopyShort | CopyWrite (w : wr_result).
Fixpoint copy_to (C : Crypto) (o : copts) (ses : csession) (ps : list bytes) (written : N) : cprog (N * option copy_error) :=
  match ps with
  | [] => CRet (written, None)
  | p :: ps' =>
      doc w <- client_write C o ses p;
      match w with
      | WrConn n err =>
          let bad := lenN p <? n in
          let n' := if bad then 0 else n in
          if err then CRet (written + n', Some (CopyWrite w))
          else if bad then CRet (written + n', Some CopyInvalid)
          else if negb (lenN p =? n') then CRet (written + n', Some CopyShort)
          else copy_to C o ses ps' (written + n')
      | _ => CRet (written, Some (CopyWrite w))
      end
  end.

Inductive fk_error := FkSend | FkParse (e : perr) | FkRefused (code : N) (msg : bytes) | FkKey.
(** client_fetcher.go:222-251. *)
Definition fetch_protocol (C : Crypto) : cprog (fk_error + pubkey) :=
  doc w <- cdo (CWrite (enc_req_common fetch_key_request));
  if snd w then CRet (inl FkSend)
  else
    doc rc <- clift parse_resp_common;
    match rc with
    | inl e => CRet (inl (FkParse e))
    | inr rc =>
        if negb (rs_success rc) then
          doc er <- clift (parse_error_resp rc);
          match er with
          | inl e => CRet (inl (FkParse e))
          | inr er => CRet (inl (FkRefused (er_code er) (er_msg er)))
          end
        else
          doc r <- clift (parse_fetch_resp rc);
          match r with
          | inl e => CRet (inl (FkParse e))
          | inr r =>
              match pkix_parse C (fk_key r) with
              | None => CRet (inl FkKey)
              | Some pk => CRet (inr pk)
              end
          end
    end.
