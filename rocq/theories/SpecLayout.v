(** The message layouts published in /repo/protocol/README.md, as lists of
    fields. Nothing here refers to the encoders of the model. *)
From Verif Require Import Bytes.

Inductive field :=
| FBits (hiw : N) (hi : N) (lo : N)  (* one octet: [hiw] high bits [hi], rest [lo] *)
| FInt (w : nat) (v : N)             (* [w] octets, network byte order *)
| FRaw (b : bytes).

(** i-th octet (from the most significant) of a [w]-octet integer. *)
Definition octet_of (w : nat) (v : N) (i : nat) : byte :=
  n2b (v / 256 ^ N.of_nat (w - 1 - i)).

Definition field_octets (f : field) : bytes :=
  match f with
  | FBits hiw hi lo => [n2b (hi * 2 ^ (8 - hiw) + lo)]
  | FInt w v => map (octet_of w v) (seq 0 w)
  | FRaw b => b
  end.

Definition octets (l : list field) : bytes := concat (map field_octets l).

(** README.md:164-167 *)
Definition doc_setup_request (id key : bytes) : bytes :=
  octets [FBits 4 1 2; FRaw id; FInt 4 (lenN key); FRaw key].
(** README.md:181-183 *)
Definition doc_setup_response (key : bytes) (hash_type : N) (sig : bytes) : bytes :=
  octets [FBits 1 1 0; FInt 4 (lenN key); FRaw key; FInt 1 hash_type; FInt 8 (lenN sig); FRaw sig].
(** README.md:208-210 *)
Definition doc_transcript (client_key server_key id : bytes) : bytes :=
  octets [FInt 4 (lenN client_key); FRaw client_key; FInt 4 (lenN server_key); FRaw server_key; FRaw id].
(** README.md:242-244 *)
Definition doc_process_request (reply : bool) (id : bytes) (counter : N) (msg : bytes) : bytes :=
  octets [FBits 4 1 3; FBits 1 (if reply then 1 else 0) 0; FRaw id; FInt 8 counter;
          FInt 8 (lenN msg); FRaw msg].
(** README.md:261-263 *)
Definition doc_process_response (counter : N) (msg : bytes) : bytes :=
  octets [FBits 1 1 0; FInt 8 counter; FInt 8 (lenN msg); FRaw msg].
(** README.md:285-287 *)
Definition doc_fetch_key_response (alg : N) (key : bytes) : bytes :=
  octets [FBits 1 1 0; FInt 1 alg; FInt 4 (lenN key); FRaw key].
(** README.md:107-109 *)
Definition doc_error_response (code : N) (msg : bytes) : bytes :=
  octets [FBits 1 0 0; FInt 4 code; FInt 8 (lenN msg); FRaw msg].
(** README.md:138-148, 280 *)
Definition doc_hello_request : bytes := octets [FBits 4 1 1].
Definition doc_hello_response : bytes := octets [FBits 1 1 0].
Definition doc_fetch_key_request : bytes := octets [FBits 4 1 4].
