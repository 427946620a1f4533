From Verif Require Import Bytes Parser Crypto Wire WireSeq Replay SpecReplay SecretMgr SecretMgrProofs Server ServerSeq SpecServer Keys Client ClientSeq SpecE2E Aging.

(** The server as ServerSeq.v has it: the sessions are those of the manager. *)
Definition view (a : ast) : sst :=
  {| s_in := s_in (a_srv a); s_step := s_step (a_srv a); s_sent := s_sent (a_srv a);
     s_map := fun k => option_map it_session (a_mgr a k);
     s_heap := s_heap (a_srv a); s_next := s_next (a_srv a); s_calls := s_calls (a_srv a) |}.

(** The manager keeps a session under [k] that was last used at [t]. *)
Definition used_at (a : ast) (k : bytes) (t : Z) : Prop :=
  exists p, a_mgr a k = Some {| it_session := p; it_last := t |}.

(** Nothing is stored between the messages. *)
Definition no_stores (us : list turn) : Prop :=
  Forall (fun u => Forall (fun o => match o with MStore _ _ _ => False | _ => True end) (tu_between u)) us.

(** Every collection finds the session used within the TTL: by a message or by one
    of the other Loads of it. [t] is when it was last used before. *)
Fixpoint in_time (ttl : Z) (k : bytes) (t : Z) (us : list turn) : Prop :=
  match us with
  | [] => True
  | u :: us' => (forall h g h', tu_between u = h ++ MGc g :: h' -> (g - last_use k t h <= ttl)%Z) /\
                in_time ttl k (tu_now u) us'
  end.
