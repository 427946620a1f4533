(** The service registry of the chat example,
    /repo/examples/chat/cmd/registry/main.go:51-128, as an interleaving of any
    number of HTTP requests.

    The users are in a sync.Map. Its Range visits no key twice, visits every key
    that is present throughout, and may or may not visit keys that are stored or
    deleted meanwhile, with any value the key had during the call (documentation
    of sync.Map).

    Simplified: JSON and HTTP work; the result of Notify is ignored, as the Go code
    does (it is only logged); a response is seen by its client when the handler
    returns, because net/http buffers it. *)
From Verif Require Import Bytes.

(** user.go:4-10 *)
Record user := { u_name : bytes; u_network : bytes; u_host : bytes; u_server : N; u_notify : N }.

(** The map: [usersStore.Store(user.Name, user)]. *)
Definition store := list user.
Definition st_get (s : store) (n : bytes) : option user := find (fun u => bytes_eqb (u_name u) n) s.
Definition st_del (s : store) (n : bytes) : store := filter (fun u => negb (bytes_eqb (u_name u) n)) s.
Definition st_put (s : store) (u : user) : store := u :: st_del s (u_name u).

(** A Range in progress: keys visited, values that keys had since it began, keys
    present since it began. *)
Record rng := { r_seen : list bytes; r_may : list user; r_must : list bytes }.
Definition r_start (s : store) : rng := {| r_seen := []; r_may := s; r_must := map u_name s |}.
Definition r_visit (r : rng) (n : bytes) : rng :=
  {| r_seen := n :: r_seen r; r_may := r_may r; r_must := r_must r |}.
Definition r_stored (r : rng) (u : user) : rng :=
  {| r_seen := r_seen r; r_may := u :: r_may r; r_must := r_must r |}.
Definition r_deleted (r : rng) (n : bytes) : rng :=
  {| r_seen := r_seen r; r_may := r_may r;
     r_must := filter (fun k => negb (bytes_eqb k n)) (r_must r) |}.
Definition visits (r : rng) (v : user) : Prop := In v (r_may r) /\ ~ In (u_name v) (r_seen r).
Definition range_done (r : rng) : Prop := incl (r_must r) (r_seen r).

Inductive req := QGet | QPost (u : user) | QDelete (n : bytes).

(** Where a request is. *)
Inductive task :=
| PCheck (u : user) (r : rng)              (* main.go:68-79 *)
| PStore (u : user)                        (* main.go:80 *)
| PStored (u : user)                       (* main.go:81-85 *)
| PTell (u : user) (r : rng)               (* main.go:86-102 *)
| PTell2 (u v : user) (r : rng)            (* main.go:88-101: [v] was told, [u] is next *)
| DLoad (n : bytes)                        (* main.go:106 *)
| DDel (u : user)                          (* main.go:112 *)
| DGone (u : user)                         (* main.go:113-117 *)
| DTell (u : user) (r : rng)               (* main.go:118-124 *)
| GList (r : rng) (acc : list user)        (* main.go:53-61 *)
| Done (code : N).

Definition on_rng (f : rng -> rng) (t : task) : task :=
  match t with
  | PCheck u r => PCheck u (f r)
  | PTell u r => PTell u (f r)
  | PTell2 u v r => PTell2 u v (f r)
  | DTell u r => DTell u (f r)
  | GList r acc => GList (f r) acc
  | t => t
  end.

Inductive rev :=
| RBegin (q : req)
| RStored (u : user)
| RDeleted (n : bytes)
| RTold (v : user) (joined : bool) (u : user)   (* [v] is told that [u] joined or left *)
| RList (l : list user)
| RResp (code : N).

(** The log lists the newest event first. *)
Record rst := { r_store : store; r_task : nat -> option task; r_log : list (nat * rev) }.
Definition rst0 : rst := {| r_store := []; r_task := fun _ => None; r_log := [] |}.

Definition r_set (s : rst) (i : nat) (t : task) : rst :=
  {| r_store := r_store s; r_task := fun j => if Nat.eqb j i then Some t else r_task s j; r_log := r_log s |}.
Definition r_add (s : rst) (i : nat) (e : rev) : rst :=
  {| r_store := r_store s; r_task := r_task s; r_log := (i, e) :: r_log s |}.
Definition r_change (s : rst) (st : store) (f : rng -> rng) : rst :=
  {| r_store := st; r_task := fun j => option_map (on_rng f) (r_task s j); r_log := r_log s |}.

Definition r_first (s : rst) (q : req) : task :=
  match q with
  | QGet => GList (r_start (r_store s)) []
  | QPost u => PCheck u (r_start (r_store s))
  | QDelete n => DLoad n
  end.

Inductive rstep : rst -> rst -> Prop :=
| r_begin s i q : r_task s i = None ->
    rstep s (r_add (r_set s i (r_first s q)) i (RBegin q))
| r_conflict s i u r v : r_task s i = Some (PCheck u r) -> visits r v -> u_name v = u_name u ->
    rstep s (r_add (r_set s i (Done 409)) i (RResp 409))
| r_other s i u r v : r_task s i = Some (PCheck u r) -> visits r v -> u_name v <> u_name u ->
    rstep s (r_set s i (PCheck u (r_visit r (u_name v))))
| r_free s i u r : r_task s i = Some (PCheck u r) -> range_done r ->
    rstep s (r_set s i (PStore u))
| r_put s i u : r_task s i = Some (PStore u) ->
    rstep s (r_add (r_set (r_change s (st_put (r_store s) u) (fun r => r_stored r u)) i (PStored u)) i (RStored u))
| r_tell s i u : r_task s i = Some (PStored u) ->
    rstep s (r_set s i (PTell u (r_start (r_store s))))
| r_self s i u r v : r_task s i = Some (PTell u r) -> visits r v -> u_name v = u_name u ->
    rstep s (r_set s i (PTell u (r_visit r (u_name v))))
| r_told s i u r v : r_task s i = Some (PTell u r) -> visits r v -> u_name v <> u_name u ->
    rstep s (r_add (r_set s i (PTell2 u v (r_visit r (u_name v)))) i (RTold v true u))
| r_told2 s i u v r : r_task s i = Some (PTell2 u v r) ->
    rstep s (r_add (r_set s i (PTell u r)) i (RTold u true v))
| r_created s i u r : r_task s i = Some (PTell u r) -> range_done r ->
    rstep s (r_add (r_set s i (Done 201)) i (RResp 201))
| r_missing s i n : r_task s i = Some (DLoad n) -> st_get (r_store s) n = None ->
    rstep s (r_add (r_set s i (Done 404)) i (RResp 404))
| r_found s i n u : r_task s i = Some (DLoad n) -> st_get (r_store s) n = Some u ->
    rstep s (r_set s i (DDel u))
| r_del s i u : r_task s i = Some (DDel u) ->
    rstep s (r_add (r_set (r_change s (st_del (r_store s) (u_name u)) (fun r => r_deleted r (u_name u))) i (DGone u))
                   i (RDeleted (u_name u)))
| r_bye s i u : r_task s i = Some (DGone u) ->
    rstep s (r_set s i (DTell u (r_start (r_store s))))
| r_left s i u r v : r_task s i = Some (DTell u r) -> visits r v ->
    rstep s (r_add (r_set s i (DTell u (r_visit r (u_name v)))) i (RTold v false u))
| r_removed s i u r : r_task s i = Some (DTell u r) -> range_done r ->
    rstep s (r_add (r_set s i (Done 204)) i (RResp 204))
| r_list s i r acc v : r_task s i = Some (GList r acc) -> visits r v ->
    rstep s (r_set s i (GList (r_visit r (u_name v)) (acc ++ [v])))
| r_listed s i r acc : r_task s i = Some (GList r acc) -> range_done r ->
    rstep s (r_add (r_set s i (Done 200)) i (RList acc)).

Inductive rsteps : rst -> rst -> Prop :=
| rs_refl s : rsteps s s
| rs_step s s' s'' : rsteps s s' -> rstep s' s'' -> rsteps s s''.

(** main.go:105: [r.URL.Path[len("/users/"):]]; [None] is a panic. *)
Definition delete_name (path : bytes) : option bytes :=
  if 7 <=? lenN path then Some (dropN 7 path) else None.
