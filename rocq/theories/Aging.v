(** A server with the secret manager it has by default (server.go:108,
    secret/secret.go): what Server.v asks of the manager ([SLoad], [SStore]) is done
    by the manager of SecretMgr.v, at the time [a_now]; the rest as in ServerSeq.v.
    The manager's Store does not fail. A request takes no time. *)
From Verif Require Import Bytes Parser Crypto Wire SecretMgr Server ServerSeq SpecServer Keys Client ClientSeq SpecE2E.

(** The map of [a_srv] is not used. *)
Record ast := { a_srv : sst; a_mgr : smap; a_now : Z }.
Definition a_with (a : ast) (s : sst) : ast := {| a_srv := s; a_mgr := a_mgr a; a_now := a_now a |}.
Definition a_manage (a : ast) (m : smap) : ast := {| a_srv := a_srv a; a_mgr := m; a_now := a_now a |}.

(** secret.go:162-180 for the two operations of the manager. *)
Definition aexec (C : Crypto) (E : senv) {R} (e : seff R) (a : ast) : R * ast :=
  match e in seff R return R * ast with
  | SStore k p => (true, a_with (a_manage a (mgr_store (a_mgr a) k p (a_now a))) (tick (a_srv a)))
  | SLoad k => let '(r, m) := mgr_load (a_mgr a) k (a_now a) in (r, a_manage a m)
  | e' => let '(r, s) := sexec C E e' (a_srv a) in (r, a_with a s)
  end.
Fixpoint arun (C : Crypto) (E : senv) {A} (p : sprog A) (a : ast) : option A * ast :=
  match p with
  | SRet x => (Some x, a)
  | SPanic => (None, a)
  | SDo e k => let '(r, a') := aexec C E e a in arun C E (k r) a'
  end.

(** Before each message: what else happens to the manager (collections,
    secret.go:147-153, and Loads), and when the message comes. *)
Record turn := { tu_between : list mop; tu_now : Z; tu_msg : bytes }.
Definition a_pass (ttl : Z) (u : turn) (a : ast) : ast :=
  {| a_srv := a_srv a; a_mgr := fold_left (mgr_step ttl) (tu_between u) (a_mgr a); a_now := tu_now u |}.

(** Write, the server's turn, one Read (as [round] in SpecE2E.v). *)
Definition aturn (C : Crypto) (CE : cenv) (SE : senv) (o : copts) (ses : csession) (n : N) (ttl : Z) (u : turn)
    (cs : cst) (a : ast) : option rd_result * cst * ast :=
  let '(_, c1) := crun C CE (client_write C o ses (tu_msg u)) cs in
  let a0 := a_pass ttl u a in
  let '(_, a1) := arun C SE (conn_body C) (a_with a0 (set_in (a_srv a0) (sent_by_client cs c1))) in
  let '(r, c2) := crun C CE (client_read C o ses n) (c_set_in c1 (sent_by_server (a_srv a) (a_srv a1))) in
  (r, c2, a1).
Fixpoint aturns (C : Crypto) (CE : cenv) (SE : senv) (o : copts) (ses : csession) (n : N) (ttl : Z) (us : list turn)
    (cs : cst) (a : ast) : list (option rd_result) * cst * ast :=
  match us with
  | [] => ([], cs, a)
  | u :: us' => let '(r, c1, a1) := aturn C CE SE o ses n ttl u cs a in
                let '(rs, c2, a2) := aturns C CE SE o ses n ttl us' c1 a1 in (r :: rs, c2, a2)
  end.
