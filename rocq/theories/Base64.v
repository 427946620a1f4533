(** encoding/base64 StdEncoding.EncodeToString. *)
From Verif Require Import Bytes.

(** Alphabet A-Z a-z 0-9 + / by 6-bit value. *)
Definition b64_char (v : N) : byte :=
  n2b (if v <? 26 then 65 + v
       else if v <? 52 then 97 + (v - 26)
       else if v <? 62 then 48 + (v - 52)
       else if v =? 62 then 43 else 47).
Definition b64_pad : byte := x3d.

Fixpoint base64 (b : bytes) : bytes :=
  match b with
  | x :: y :: z :: r =>
      let v := b2n x * 65536 + b2n y * 256 + b2n z in
      b64_char (v / 262144) :: b64_char (v / 4096 mod 64) :: b64_char (v / 64 mod 64) ::
      b64_char (v mod 64) :: base64 r
  | [x; y] =>
      let v := b2n x * 65536 + b2n y * 256 in
      [b64_char (v / 262144); b64_char (v / 4096 mod 64); b64_char (v / 64 mod 64); b64_pad]
  | [x] =>
      let v := b2n x * 65536 in
      [b64_char (v / 262144); b64_char (v / 4096 mod 64); b64_pad; b64_pad]
  | [] => []
  end.
