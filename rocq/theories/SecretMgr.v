(** /repo/secret/secret.go: InMemoryManager.

    A session is a pointer ([nat]); time stamps are nanoseconds ([Z]).
    The map is a total function from ids (Go strings, i.e. octets). *)
From Verif Require Import Bytes.

(** secret.go:113-116 [inMemorySession] *)
Record item := { it_session : nat; it_last : Z }.

Definition smap := bytes -> option item.
Definition smap_empty : smap := fun _ => None.
Definition smap_set (m : smap) (k : bytes) (v : option item) : smap :=
  fun k' => if bytes_eqb k' k then v else m k'.

(** secret.go:162-168 [Store] *)
Definition mgr_store (m : smap) (k : bytes) (p : nat) (now : Z) : smap :=
  smap_set m k (Some {| it_session := p; it_last := now |}).

(** secret.go:171-180 [Load] *)
Definition mgr_load (m : smap) (k : bytes) (now : Z) : option nat * smap :=
  match m k with
  | None => (None, m)
  | Some it => (Some (it_session it),
                smap_set m k (Some {| it_session := it_session it; it_last := now |}))
  end.

(** secret.go:147-153: one collection; time.Since is evaluated per entry, all at
    [now] here (the step model below lets time pass between entries). With a
    non-positive TTL the collector is not started (secret.go:137). *)
Definition mgr_gc (ttl : Z) (m : smap) (now : Z) : smap :=
  if (0 <? ttl)%Z then
    fun k => match m k with
             | Some it => if (ttl <? now - it_last it)%Z then None else Some it
             | None => None
             end
  else m.

(** ** Histories of completed operations *)
Inductive mop := MStore (k : bytes) (p : nat) (now : Z) | MLoad (k : bytes) (now : Z) | MGc (now : Z).

Definition mgr_step (ttl : Z) (m : smap) (o : mop) : smap :=
  match o with
  | MStore k p now => mgr_store m k p now
  | MLoad k now => snd (mgr_load m k now)
  | MGc now => mgr_gc ttl m now
  end.
Definition mgr_exec (ttl : Z) (h : list mop) : smap := fold_left (mgr_step ttl) h smap_empty.

(** ** Interleaved operations: every sync.Map operation and every reading of the
    clock is one step. *)
Inductive mpc :=
| MIdle
| MpStore (k : bytes) (p : nat)               (* 163: before time.Now() *)
| MpStore2 (k : bytes) (p : nat) (now : Z)    (* 163: before secrets.Store *)
| MpStored (k : bytes) (p : nat)              (* Store returned *)
| MpLoad (k : bytes)                          (* 172: before secrets.Load *)
| MpLoad2 (k : bytes) (it : item)             (* 177: before time.Now() *)
| MpLoad3 (k : bytes) (it : item) (now : Z)   (* 178: before secrets.Store *)
| MpLoaded (k : bytes) (r : option nat).      (* Load returned *)

Record mstate := {
  ms_map : smap; ms_now : Z; ms_pc : nat -> mpc;
  ms_gc : option bytes (* key the collector found expired and is about to delete *) }.

Inductive mev :=
| MeCall (t : nat) (p : mpc)  (* goroutine t, idle or returned, calls Store or Load *)
| MeStep (t : nat)
| MeTick (d : Z)              (* time passes *)
| MeGcCheck (k : bytes)       (* 148-149 on entry k *)
| MeGcDelete.                 (* 150 *)

Definition mupd (f : nat -> mpc) (t : nat) (v : mpc) : nat -> mpc :=
  fun t' => if Nat.eqb t' t then v else f t'.

Definition quiet (p : mpc) : bool :=
  match p with MIdle | MpStored _ _ | MpLoaded _ _ => true | _ => false end.
Definition is_call (p : mpc) : bool :=
  match p with MpStore _ _ | MpLoad _ => true | _ => false end.

Definition set_pc (s : mstate) (t : nat) (p : mpc) : mstate :=
  {| ms_map := ms_map s; ms_now := ms_now s; ms_pc := mupd (ms_pc s) t p; ms_gc := ms_gc s |}.
Definition set_map (s : mstate) (m : smap) : mstate :=
  {| ms_map := m; ms_now := ms_now s; ms_pc := ms_pc s; ms_gc := ms_gc s |}.

Definition mstep (ttl : Z) (s : mstate) (e : mev) : mstate :=
  match e with
  | MeCall t p => if quiet (ms_pc s t) && is_call p then set_pc s t p else s
  | MeStep t =>
      match ms_pc s t with
      | MpStore k p => set_pc s t (MpStore2 k p (ms_now s))
      | MpStore2 k p now =>
          set_pc (set_map s (smap_set (ms_map s) k (Some {| it_session := p; it_last := now |}))) t (MpStored k p)
      | MpLoad k =>
          match ms_map s k with
          | None => set_pc s t (MpLoaded k None)
          | Some it => set_pc s t (MpLoad2 k it)
          end
      | MpLoad2 k it => set_pc s t (MpLoad3 k it (ms_now s))
      | MpLoad3 k it now =>
          set_pc (set_map s (smap_set (ms_map s) k (Some {| it_session := it_session it; it_last := now |}))) t
                 (MpLoaded k (Some (it_session it)))
      | _ => s
      end
  | MeTick d => {| ms_map := ms_map s; ms_now := ms_now s + Z.max 0 d; ms_pc := ms_pc s; ms_gc := ms_gc s |}
  | MeGcCheck k =>
      match ms_gc s, ms_map s k with
      | None, Some it =>
          if ((0 <? ttl) && (ttl <? ms_now s - it_last it))%Z
          then {| ms_map := ms_map s; ms_now := ms_now s; ms_pc := ms_pc s; ms_gc := Some k |}
          else s
      | _, _ => s
      end
  | MeGcDelete =>
      match ms_gc s with
      | Some k => {| ms_map := smap_set (ms_map s) k None; ms_now := ms_now s; ms_pc := ms_pc s; ms_gc := None |}
      | None => s
      end
  end.

Definition minit : mstate :=
  {| ms_map := smap_empty; ms_now := 0; ms_pc := fun _ => MIdle; ms_gc := None |}.
Definition mrun (ttl : Z) (tr : list mev) : mstate := fold_left (mstep ttl) tr minit.
