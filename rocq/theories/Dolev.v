(** The protocol against an attacker who controls the network, in the symbolic
    (Dolev-Yao) manner: client.go:227-307 (handshake), 310-416 (Read and Write),
    internal/server/action_setup.go:16-165, action_process.go:16-202.

    Octets are replaced by terms, so cryptography is perfect: a ciphertext is opened
    with its key only, a signature made with its key only, a shared secret computed
    from one of the two private keys only. What the other files prove of octets is
    built in here: encodings and the transcript are unambiguous (C12, C42), so they
    are pairs; nonces are those of nonce.go (C14).

    The attacker reads everything that is sent, and whatever a client or server
    receives comes from the attacker. Any number of clients and servers run, each
    any number of sessions. Clients of a pool, which share a session, are one client
    here. Simplified: a shared secret exists for every public key (X25519 refuses
    those of low order); different encodings of one point are [TPoint i v] for
    different [v] and lead to the same secret; sessions never expire, and a server
    may use one that was replaced meanwhile, as a request in progress does. *)
From Verif Require Import Bytes Parser Crypto Wire.

Inductive term :=
| TData (b : bytes)                 (* octets everybody knows or can guess *)
| TMsg (k : nat)                    (* a message of an application *)
| TScalar (i : nat)                 (* X25519 private key *)
| TPoint (i v : nat)                (* its public key *)
| TDh (i j : nat)                   (* the secret shared by two private keys *)
| TSignKey (s : nat)                (* the signing key of a server *)
| TVerKey (s : nat)
| TSig (s : nat) (t : term)
| TKdf (t : term)                   (* the AES key, internal/kdf *)
| TAead (k n p : term)
| TPair (a b : term).

Definition dh (i j : nat) : term := TDh (Nat.min i j) (Nat.max i j).
(** protocol/action_002_setup.go:63-84 [SetupTranscript] *)
Definition transcript (client server id : term) : term := TPair client (TPair server id).
(** kdf and nonce: client.go:26-40, 359-366, 398-413; action_process.go:114-165, 192-196 *)
Definition sealed (dir : byte) (i j : nat) (n : N) (m : term) : term :=
  TAead (TKdf (dh i j)) (TData (gcm_nonce dir n)) m.

Inductive event :=
| EAtt (i : nat)                                            (* the attacker makes a private key *)
| ELeak (s : nat)                                           (* the attacker gets a signing key *)
| EDial (c i : nat) (id : bytes) (s k : nat)                (* client [c] calls server [s]; its fetcher returned key [k] *)
| ESetup (s : nat) (host id : bytes) (i v j : nat) (ok : bool)  (* server [s] stores a session; [ok]: it could sign *)
| EAccept (c i j w : nat)                                   (* client [c] accepts the server's key [j] *)
| EWrite (c i j : nat) (n : N) (m : term)
| EHandle (s : nat) (host id : bytes) (i j : nat) (n : N) (m : term) (r : option term)  (* handler called; its reply *)
| ERead (c i j : nat) (n : N) (m : term).

(** What an event puts on the network or into the attacker's hands. *)
Definition shows (e : event) : list term :=
  match e with
  | EAtt i => [TScalar i]
  | ELeak s => [TSignKey s]
  | EDial _ i id _ _ => [TData id; TPoint i 0]
  | ESetup s _ id i v j true => [TPoint j 0; TSig s (transcript (TPoint i v) (TPoint j 0) (TData id))]
  | EWrite _ i j n m => [sealed dir_c2s i j n m]
  | EHandle _ _ _ i j n _ (Some r) => [sealed dir_s2c i j n r]
  | _ => []
  end.

(** What the attacker can work out; the newest event is first. *)
Inductive know (tr : list event) : term -> Prop :=
| k_shown e t : In e tr -> In t (shows e) -> know tr t
| k_data b : know tr (TData b)
| k_verkey s : know tr (TVerKey s)
| k_pair a b : know tr a -> know tr b -> know tr (TPair a b)
| k_fst a b : know tr (TPair a b) -> know tr a
| k_snd a b : know tr (TPair a b) -> know tr b
| k_point i v : know tr (TScalar i) -> know tr (TPoint i v)
| k_variant i v w : know tr (TPoint i v) -> know tr (TPoint i w)
| k_dh i j v : know tr (TScalar i) -> know tr (TPoint j v) -> know tr (dh i j)
| k_kdf t : know tr t -> know tr (TKdf t)
| k_sign s t : know tr (TSignKey s) -> know tr t -> know tr (TSig s t)
| k_content s t : know tr (TSig s t) -> know tr t
| k_seal k n p : know tr k -> know tr n -> know tr p -> know tr (TAead k n p)
| k_open k n p : know tr (TAead k n p) -> know tr k -> know tr p.

(** A private key that was made. *)
Definition makes (e : event) (i : nat) : Prop :=
  match e with
  | EAtt j | EDial _ j _ _ _ | ESetup _ _ _ _ _ j _ => i = j
  | _ => False
  end.
Definition fresh (tr : list event) (i : nat) : Prop := forall e, In e tr -> ~ makes e i.

(** What applications send: messages of their own and what the attacker knows. *)
Definition app_message (tr : list event) (m : term) : Prop := (exists k, m = TMsg k) \/ know tr m.

Inductive dy : list event -> Prop :=
| dy_nil : dy []
| dy_att tr i : dy tr -> fresh tr i -> dy (EAtt i :: tr)
| dy_leak tr s : dy tr -> dy (ELeak s :: tr)
| dy_dial tr c i id s k : dy tr -> fresh tr i ->
    (forall i' id' s' k', ~ In (EDial c i' id' s' k') tr) ->
    dy (EDial c i id s k :: tr)
(** action_setup.go: a fresh key for every Setup, the session is stored, the
    transcript signed. *)
| dy_setup tr s host id i v j ok : dy tr -> fresh tr j -> know tr (TPoint i v) ->
    dy (ESetup s host id i v j ok :: tr)
(** client.go:256-307: the signature over both keys and the id is verified with the
    fetched key. *)
| dy_accept tr c i id s k j w : dy tr -> In (EDial c i id s k) tr ->
    (forall i' j' w', ~ In (EAccept c i' j' w') tr) ->
    know tr (TPoint j w) -> know tr (TSig k (transcript (TPoint i 0) (TPoint j w) (TData id))) ->
    dy (EAccept c i j w :: tr)
(** client.go:390-416: every counter is used once (C15). *)
| dy_write tr c i j w n m : dy tr -> In (EAccept c i j w) tr -> n < two64 -> app_message tr m ->
    (forall i' j' m', ~ In (EWrite c i' j' n m') tr) ->
    dy (EWrite c i j n m :: tr)
(** action_process.go: a session of the host and id, a counter that was not used on
    it (C19), a ciphertext that opens. *)
| dy_handle tr s host id i v j ok n m r : dy tr -> In (ESetup s host id i v j ok) tr -> n < two64 ->
    (forall s' h' id' i' m' r', ~ In (EHandle s' h' id' i' j n m' r') tr) ->
    know tr (sealed dir_c2s i j n m) -> (forall t, r = Some t -> app_message tr t) ->
    dy (EHandle s host id i j n m r :: tr)
(** client.go:333-387: the counter is one the client sent. *)
| dy_read tr c i j n m m' : dy tr -> In (EWrite c i j n m) tr -> know tr (sealed dir_s2c i j n m') ->
    dy (ERead c i j n m' :: tr).
