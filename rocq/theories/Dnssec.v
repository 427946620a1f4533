(** /repo/internal/dns/dnssec/dnssec.go and /repo/internal/dns/doh/doh.go.

    Go strings are byte strings. Big integers are natural numbers (math/big's
    Bytes and SetBytes ignore signs; a nil *big.Int inside a key is not
    represented). Not modelled: the HTTP exchange and the decoding of the JSON
    document, whose outcomes are inputs; the text of errors. *)
From Coq Require Import Strings.String.
From Verif Require Import Bytes Crypto Kdf Base64 Server.

(** strings.Split with a one-octet separator. *)
Fixpoint split_on (sep : byte) (s : bytes) : list bytes :=
  match s with
  | [] => [[]]
  | c :: r => if Byte.eqb c sep then [] :: split_on sep r
              else match split_on sep r with w :: ws => (c :: w) :: ws | [] => [[c]] end
  end.

(** strconv.ParseUint(s, 10, bits): at least one digit, digits only, in range. *)
Fixpoint digits_acc (acc : N) (s : bytes) : option N :=
  match s with
  | [] => Some acc
  | c :: r => let d := b2n c in
              if (48 <=? d) && (d <? 58) then digits_acc (acc * 10 + (d - 48)) r else None
  end.
Definition parse_uint (bits : N) (s : bytes) : option N :=
  match s with
  | [] => None
  | _ => match digits_acc 0 s with
         | Some v => if v <? 2 ^ bits then Some v else None
         | None => None
         end
  end.

(** encoding/base64 StdEncoding.DecodeString: line breaks are skipped, the last
    group may be padded, its unused bits are ignored (not in strict mode). *)
Definition b64_digit (c : byte) : option N :=
  let n := b2n c in
  if (65 <=? n) && (n <? 91) then Some (n - 65)
  else if (97 <=? n) && (n <? 123) then Some (n - 97 + 26)
  else if (48 <=? n) && (n <? 58) then Some (n - 48 + 52)
  else if n =? 43 then Some 62
  else if n =? 47 then Some 63 else None.
Definition b64_group (a b c d : N) : bytes := be_enc 3 (((a * 64 + b) * 64 + c) * 64 + d).
Fixpoint b64_groups (s : bytes) : option bytes :=
  match s with
  | [] => Some []
  | a :: b :: c :: d :: r =>
      match b64_digit a, b64_digit b with
      | Some a', Some b' =>
          match b64_digit c with
          | Some c' =>
              match b64_digit d with
              | Some d' => match b64_groups r with
                           | Some t => Some (b64_group a' b' c' d' ++ t)
                           | None => None
                           end
              | None => if Byte.eqb d b64_pad
                        then match r with [] => Some (firstn 2 (b64_group a' b' c' 0)) | _ => None end
                        else None
              end
          | None => if Byte.eqb c b64_pad && Byte.eqb d b64_pad
                    then match r with [] => Some (firstn 1 (b64_group a' b' 0 0)) | _ => None end
                    else None
          end
      | _, _ => None
      end
  | _ => None
  end.
Definition not_eol (c : byte) : bool := negb (Byte.eqb c x0a || Byte.eqb c x0d).
Definition b64_decode (s : bytes) : option bytes := b64_groups (filter not_eol s).

(** math/big Int.Bytes: big-endian without leading zeros. *)
Definition big_bytes (n : N) : bytes := be_enc (N.to_nat ((N.size n + 7) / 8)) n.

(** Indexing that panics when out of range. *)
Definition idx {A} (l : bytes) (i : nat) (k : byte -> kres A) : kres A :=
  match nth_error l i with Some b => k b | None => KPanic end.

(** dnssec.go:125-170 [publicKeyRSA]; [KOk None] is the nil pointer. *)
Definition public_key_rsa (buf : bytes) : kres (option (N * N)) :=
  if (length buf <? 1 + 1 + 64)%nat then KOk None else
  idx buf 0 (fun l0 => idx buf 1 (fun l1 => idx buf 2 (fun l2 =>
  let '(explen, keyoff) :=
    if b2n l0 =? 0 then (b2n l1 * 256 + b2n l2, 3%nat) else (b2n l0, 1%nat) in
  if (4 <? explen) || (explen =? 0) then KOk None else
  idx buf keyoff (fun k0 =>
  if b2n k0 =? 0 then KOk None else
  let modoff := (keyoff + N.to_nat explen)%nat in
  let modlen := (length buf - modoff)%nat in
  if (modlen <? 64)%nat || (512 <? modlen)%nat then KOk None else
  idx buf modoff (fun m0 =>
  if b2n m0 =? 0 then KOk None else
  let expo := be_dec (firstn (N.to_nat explen) (skipn keyoff buf)) in
  if 2 ^ 31 - 1 <? expo then KOk None
  else KOk (Some (be_dec (skipn modoff buf), expo))))))).

(** dnssec.go:175-194 [publicKeyECDSA], for the two algorithms it is called with. *)
Definition public_key_ecdsa (buf : bytes) (c : curve) (size : nat) : option (curve * N * N) :=
  if (length buf =? size)%nat
  then Some (c, be_dec (firstn (length buf / 2) buf), be_dec (skipn (length buf / 2) buf))
  else None.

(** dnssec.go:199-204 [publicKeyED25519] *)
Definition public_key_ed25519 (buf : bytes) : option bytes :=
  if (length buf =? 32)%nat then Some buf else None.

(** dnssec.go:76-120 [ParseDNSKEY]. [KOk None] is (nil, nil). The nil pointer or
    slice a decoder returns becomes a non-nil interface value, which the final
    test against nil does not catch. *)
Definition parse_dnskey (key : bytes) : kres (option pubkey) :=
  match split_on x20 key with
  | [f; p; a; k] =>
      match parse_uint 16 f with
      | None => KErr
      | Some flags =>
          if negb (flags =? 256) then KOk None else
          match parse_uint 8 p with
          | None => KErr
          | Some protocol =>
              if negb (protocol =? 3) then KErr else
              match parse_uint 8 a with
              | None => KErr
              | Some alg =>
                  match b64_decode k with
                  | None => KErr
                  | Some raw =>
                      if (alg =? 5) || (alg =? 7) || (alg =? 8) || (alg =? 10) then
                        match public_key_rsa raw with
                        | KOk (Some (n, e)) => KOk (Some (PkRSA n e))
                        | KOk None => KOk (Some PkNilRSA)
                        | KErr => KErr
                        | KPanic => KPanic
                        end
                      else if (alg =? 13) || (alg =? 14) then
                        match public_key_ecdsa raw (if alg =? 13 then P256 else P384)
                                (if alg =? 13 then 64%nat else 96%nat) with
                        | Some (c, x, y) => KOk (Some (PkECDSA c x y))
                        | None => KOk (Some PkNilECDSA)
                        end
                      else if alg =? 15 then
                        match public_key_ed25519 raw with
                        | Some b => KOk (Some (PkEd25519 b))
                        | None => KOk (Some PkNilEd25519)
                        end
                      else KErr
                  end
              end
          end
      end
  | _ => KErr
  end.

(** dnssec.go:246-260 [exponentToBuf] *)
Definition exponent_to_buf (e : N) : bytes :=
  let i := big_bytes e in
  (if lenN i <? 256 then [n2b (lenN i)] else [x00; n2b (lenN i / 256); n2b (lenN i)]) ++ i.
(** dnssec.go:271-279 [intToBytes] *)
Definition int_to_bytes (n : N) (len : nat) : bytes :=
  let buf := big_bytes n in
  if (length buf <? len)%nat then repeat x00 (len - length buf) ++ buf else buf.
(** dnssec.go:264-268 [curveToBuf] *)
Definition curve_to_buf (x y : N) (len : nat) : bytes := int_to_bytes x len ++ int_to_bytes y len.

(** The "256 3 %d %s" of dnssec.go:218-237; the algorithms have two digits. *)
Definition record_text (alg : N) (material : bytes) : bytes :=
  str "256 3 " ++ [n2b (48 + alg / 10); n2b (48 + alg mod 10)] ++ str " " ++ base64 material.

(** dnssec.go:209-242 [BuildDNSKEY]. A nil *rsa.PublicKey or *ecdsa.PublicKey is
    dereferenced. *)
Definition build_dnskey (pk : pubkey) : kres bytes :=
  match pk with
  | PkRSA n e => if e =? 0 then KErr else KOk (record_text 10 (exponent_to_buf e ++ big_bytes n))
  | PkECDSA P256 x y => KOk (record_text 13 (curve_to_buf x y 32))
  | PkECDSA P384 x y => KOk (record_text 14 (curve_to_buf x y 48))
  | PkECDSA _ _ _ => KErr
  | PkEd25519 k => if (length k =? 32)%nat then KOk (record_text 15 k) else KErr
  | PkNilEd25519 => KErr
  | PkNilRSA | PkNilECDSA => KPanic
  | PkX25519 _ | PkOther => KErr
  end.

(** What the DNS-over-HTTPS provider answered (doh.go:57-86): no response, or a
    status and the JSON document, if it could be decoded: the AD flag and the
    data of the answers. *)
Inductive doh_response :=
| DohFailed
| DohAnswer (status : N) (json : option (bool * list bytes)).

(** doh.go:103-111: the loop; [err] and [pk] are the variables it leaves behind. *)
Fixpoint doh_loop (answers : list bytes) (err : bool) (pk : option pubkey) : kres (bool * option pubkey) :=
  match answers with
  | [] => KOk (err, pk)
  | a :: r =>
      match parse_dnskey a with
      | KErr => doh_loop r true None
      | KOk None => doh_loop r false None
      | KOk (Some k) => KOk (false, Some k)
      | KPanic => KPanic
      end
  end.
(** doh.go:57-119 [RetrievePublicKey]; key/client_fetcher.go:80-88 wraps it. *)
Definition doh_retrieve (r : doh_response) : kres pubkey :=
  match r with
  | DohFailed => KErr
  | DohAnswer status json =>
      if negb (status =? 200) then KErr else
      match json with
      | None => KErr
      | Some (ad, answers) =>
          match answers with
          | [] => KErr
          | _ =>
              if negb ad then KErr else
              match doh_loop answers false None with
              | KOk (true, _) => KErr
              | KOk (false, None) => KErr
              | KOk (false, Some k) => KOk k
              | KErr => KErr
              | KPanic => KPanic
              end
          end
      end
  end.
