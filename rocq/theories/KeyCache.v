(** /repo/key/client_fetcher.go:293-385: ClientFetcherCache.

    Any number of Fetch calls and the collector run at once; every sync.Map
    operation, reading of the clock and call of the underlying fetcher is one
    step. The clock never goes back (time.Since uses the monotonic reading).
    The underlying fetcher answers arbitrarily. *)
From Verif Require Import Bytes Crypto ClientConc.

(** client_fetcher.go:308-311 [clientFetcherCacheItem] *)
Record centry := { ce_key : pubkey; ce_at : N }.

Definition hmap := bytes -> option centry.
Definition hset (m : hmap) (h : bytes) (v : option centry) : hmap :=
  fun h' => if bytes_eqb h' h then v else m h'.

(** Where a Fetch call is. *)
Inductive fpc :=
| FIdle
| FLoaded (h : bytes) (it : centry)   (* 365: Load found [it], before time.Since *)
| FDelete (h : bytes)                 (* 370: before cache.Delete *)
| FFetch (h : bytes)                  (* 373: before fetcher.Fetch *)
| FNow (h : bytes) (pk : pubkey)      (* 380: before time.Now *)
| FStore (h : bytes) (it : centry).   (* 378: before cache.Store *)

(** The collector (client_fetcher.go:344-353): it looks at an entry and may later
    delete the key. *)
Inductive gpc := GIdle | GDelete (h : bytes).

Inductive fev :=
| ELoad (h : bytes)                              (* Fetch called *)
| ECached (h : bytes) (pk : pubkey) (at_ : N)    (* returned from the cache, stored at [at_] *)
| EAsk (h : bytes) (r : option pubkey)           (* the underlying fetcher answered *)
| EFresh (h : bytes) (pk : pubkey)               (* stored and returned *)
| EFail (h : bytes).                             (* returned the fetcher's error *)

(** Newest event first, with the call and the time. *)
Record fstt := {
  f_now : N; f_map : hmap; f_pc : nat -> fpc; f_gc : gpc; f_trace : list (nat * N * fev) }.
Definition f0 : fstt :=
  {| f_now := 0; f_map := fun _ => None; f_pc := fun _ => FIdle; f_gc := GIdle; f_trace := [] |}.

Definition f_go (s : fstt) (i : nat) (p : fpc) (m : hmap) (ev : list fev) : fstt :=
  {| f_now := f_now s; f_map := m; f_pc := upd (f_pc s) i p; f_gc := f_gc s;
     f_trace := map (fun e => (i, f_now s, e)) ev ++ f_trace s |}.
Definition f_gc_go (s : fstt) (g : gpc) (m : hmap) : fstt :=
  {| f_now := f_now s; f_map := m; f_pc := f_pc s; f_gc := g; f_trace := f_trace s |}.

Definition expired (ttl : Z) (now : N) (it : centry) : bool := (ttl <? Z.of_N now - Z.of_N (ce_at it))%Z.

Inductive fstep (ttl : Z) (s : fstt) : fstt -> Prop :=
| FTick n : f_now s <= n ->
    fstep ttl s {| f_now := n; f_map := f_map s; f_pc := f_pc s; f_gc := f_gc s; f_trace := f_trace s |}
(* 364: cache.Load *)
| FCallHit i h it : f_pc s i = FIdle -> f_map s h = Some it ->
    fstep ttl s (f_go s i (FLoaded h it) (f_map s) [ELoad h])
| FCallMiss i h : f_pc s i = FIdle -> f_map s h = None ->
    fstep ttl s (f_go s i (FFetch h) (f_map s) [ELoad h])
(* 366-368 *)
| FReturn i h it : f_pc s i = FLoaded h it -> (ttl <= 0)%Z \/ expired ttl (f_now s) it = false ->
    fstep ttl s (f_go s i FIdle (f_map s) [ECached h (ce_key it) (ce_at it)])
| FExpired i h it : f_pc s i = FLoaded h it -> (0 < ttl)%Z -> expired ttl (f_now s) it = true ->
    fstep ttl s (f_go s i (FDelete h) (f_map s) [])
(* 370 *)
| FDeleted i h : f_pc s i = FDelete h ->
    fstep ttl s (f_go s i (FFetch h) (hset (f_map s) h None) [])
(* 373-376 *)
| FAsked i h pk : f_pc s i = FFetch h ->
    fstep ttl s (f_go s i (FNow h pk) (f_map s) [EAsk h (Some pk)])
| FFailed i h : f_pc s i = FFetch h ->
    fstep ttl s (f_go s i FIdle (f_map s) [EFail h; EAsk h None])
(* 378-382 *)
| FTimed i h pk : f_pc s i = FNow h pk ->
    fstep ttl s (f_go s i (FStore h {| ce_key := pk; ce_at := f_now s |}) (f_map s) [])
| FStored i h it : f_pc s i = FStore h it ->
    fstep ttl s (f_go s i FIdle (hset (f_map s) h (Some it)) [EFresh h (ce_key it)])
(* 342, 348-350: the collector, only with a positive ttl *)
| FGcSee h it : f_gc s = GIdle -> (0 < ttl)%Z -> f_map s h = Some it -> expired ttl (f_now s) it = true ->
    fstep ttl s (f_gc_go s (GDelete h) (f_map s))
| FGcDelete h : f_gc s = GDelete h ->
    fstep ttl s (f_gc_go s GIdle (hset (f_map s) h None)).

Inductive freachable (ttl : Z) : fstt -> Prop :=
| FInit : freachable ttl f0
| FNext s s' : freachable ttl s -> fstep ttl s s' -> freachable ttl s'.

(** Steps onward from a state. *)
Inductive fsteps (ttl : Z) (s : fstt) : fstt -> Prop :=
| FSame : fsteps ttl s s
| FMore s' s'' : fsteps ttl s s' -> fstep ttl s' s'' -> fsteps ttl s s''.
