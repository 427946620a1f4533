(** All connections of a server at once.

    Every request being handled, on any TCP connection or UDP exchange, is an
    instance running [conn_body] or [one_request]; any instance may perform its
    next effect at any time, and new ones may start at any time. (Requests of one
    TCP connection are really handled one after the other; dropping that order
    only adds behaviours.) The network, the application, the signer and the
    random source answer arbitrarily. A secret manager may return, for a key, any
    session ever stored under that key, or nothing, and may fail (this covers
    races and collection, see C23-C26). CheckAndUpdate is one step (see C22). *)
From Verif Require Import Bytes Parser Crypto Wire Replay Server ServerSeq.

(** What an instance did, with the answers it got. *)
Inductive ev :=
| EvRead (b : bytes)            (* octets taken from the network *)
| EvHost (h : option bytes)
| EvGen (k : option bytes)
| EvNew (p : nat) (secret : bytes)
| EvStore (key : bytes) (p : nat) (ok : bool)
| EvLoad (key : bytes) (p : option nat)
| EvSecret (p : nat) (secret : bytes)
| EvCheck (p : nat) (c : N) (fresh : bool)
| EvHandler (p : nat) (c : N) (reply : bool) (msg : bytes) (r : hres)
| EvSeal (p : nat) (c : N) (key nonce pt ct : bytes)
| EvWrite (b : bytes) (n : N)
| EvSign (h : hash) (content : bytes) (r : kres bytes)
| EvFetchKey (r : kres (N * pubkey))
| EvOther.

Definition ev_of {R} (e : seff R) : R -> ev :=
  match e in seff R return R -> ev with
  | SRead _ => fun r => match r with inl _ => EvOther | inr b => EvRead b end
  | SCopy _ => fun r => EvRead (fst r)
  | SHost => fun r => EvHost r
  | SGenKey => fun r => EvGen r
  | SNewSession s => fun p => EvNew p s
  | SStore k p => fun r => EvStore k p r
  | SLoad k => fun r => EvLoad k r
  | SSecret p => fun r => EvSecret p r
  | SCheck p c => fun r => EvCheck p c r
  | SHandler p c reply m => fun r => EvHandler p c reply m r
  | SSeal p c key nonce pt => fun r => EvSeal p c key nonce pt r
  | SWrite b => fun r => EvWrite b (fst r)
  | SSign h m => fun r => EvSign h m r
  | SFetchKey => fun r => EvFetchKey r
  | SAlloc _ | SQuit => fun _ => EvOther
  end.

Record inst := { i_host : option bytes; i_prog : sprog bool }.

(** The trace lists the newest event first. *)
Record gst := {
  g_heap : nat -> session; g_next : nat; g_stored : list (bytes * nat);
  g_inst : nat -> option inst; g_trace : list (nat * ev) }.

Definition g0 : gst := {|
  g_heap := fun _ => {| ses_secret := []; ses_win := new_window |}; g_next := 0;
  g_stored := []; g_inst := fun _ => None; g_trace := [] |}.

Definition g_set_session (g : gst) (p : nat) (v : session) : gst :=
  {| g_heap := fun q => if Nat.eqb q p then v else g_heap g q; g_next := g_next g;
     g_stored := g_stored g; g_inst := g_inst g; g_trace := g_trace g |}.
Definition g_set_next (g : gst) (n : nat) : gst :=
  {| g_heap := g_heap g; g_next := n; g_stored := g_stored g; g_inst := g_inst g; g_trace := g_trace g |}.
Definition g_add_stored (g : gst) (k : bytes) (p : nat) : gst :=
  {| g_heap := g_heap g; g_next := g_next g; g_stored := (k, p) :: g_stored g; g_inst := g_inst g;
     g_trace := g_trace g |}.
Definition g_set_inst (g : gst) (i : nat) (v : inst) : gst :=
  {| g_heap := g_heap g; g_next := g_next g; g_stored := g_stored g;
     g_inst := fun j => if Nat.eqb j i then Some v else g_inst g j; g_trace := g_trace g |}.
Definition g_log (g : gst) (i : nat) (x : ev) : gst :=
  {| g_heap := g_heap g; g_next := g_next g; g_stored := g_stored g; g_inst := g_inst g;
     g_trace := (i, x) :: g_trace g |}.

(** Possible answers to an effect and the shared state after it. *)
Definition ans (C : Crypto) (host : option bytes) (g : gst) {R} (e : seff R) : R -> gst -> Prop :=
  match e in seff R return R -> gst -> Prop with
  | SRead n => fun r g' => g' = g /\ match r with inl _ => True | inr b => lenN b = n end
  | SCopy n => fun r g' => g' = g /\ lenN (fst r) <= n
  | SAlloc _ => fun _ g' => g' = g
  | SWrite _ => fun _ g' => g' = g
  | SHost => fun r g' => g' = g /\ r = host
  | SGenKey => fun _ g' => g' = g
  | SNewSession sec => fun r g' => r = g_next g /\
      g' = g_set_next (g_set_session g (g_next g) {| ses_secret := sec; ses_win := new_window |}) (S (g_next g))
  | SStore k p => fun r g' => g' = g_add_stored g k p \/ (r = false /\ g' = g)
  | SLoad k => fun r g' => g' = g /\ match r with None => True | Some p => In (k, p) (g_stored g) end
  | SSecret p => fun r g' => g' = g /\ r = ses_secret (g_heap g p)
  | SCheck p c => fun r g' => r = fst (check_and_update (ses_win (g_heap g p)) c) /\
      g' = g_set_session g p {| ses_secret := ses_secret (g_heap g p);
                                ses_win := snd (check_and_update (ses_win (g_heap g p)) c) |}
  | SHandler _ _ _ _ => fun _ g' => g' = g
  | SSeal _ _ key nonce pt => fun r g' => g' = g /\ r = gcm_seal C key nonce pt
  | SSign _ _ => fun _ g' => g' = g
  | SFetchKey => fun _ g' => g' = g
  | SQuit => fun _ g' => g' = g
  end.

Inductive cstep (C : Crypto) (g : gst) : gst -> Prop :=
| CSpawn i host p : g_inst g i = None -> p = conn_body C \/ p = one_request C ->
    cstep C g (g_set_inst g i {| i_host := host; i_prog := p |})
| CStep i v R (e : seff R) k r g' : g_inst g i = Some v -> i_prog v = SDo e k ->
    ans C (i_host v) g e r g' ->
    cstep C g (g_log (g_set_inst g' i {| i_host := i_host v; i_prog := k r |}) i (ev_of e r)).

Inductive reachable (C : Crypto) : gst -> Prop :=
| RInit : reachable C g0
| RStep g g' : reachable C g -> cstep C g g' -> reachable C g'.

(** What one instance did, newest first. *)
Definition loc (i : nat) (tr : list (nat * ev)) : list ev :=
  map snd (filter (fun x => Nat.eqb (fst x) i) tr).

(** The octets it took from the network, in order. *)
Fixpoint got (h : list ev) : bytes :=
  match h with
  | [] => []
  | EvRead b :: h' => got h' ++ b
  | _ :: h' => got h'
  end.
