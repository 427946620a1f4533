From Verif Require Import Bytes Parser Crypto Kdf Wire WireSeq Replay SpecReplay Server ServerSeq SpecServer Keys Client ClientSeq SpecClient SpecE2E.

(** A connection that takes all of what is written to it, or nothing and says so;
    setting a deadline works. *)
Definition all_or_nothing (E : cenv) : Prop :=
  (forall i b, ce_write E i b = (0, true) \/ lenN b <= fst (ce_write E i b) /\ snd (ce_write E i b) = false) /\
  (forall i, ce_deadline E i = true).

(** An application that sends the messages [ps]: a Write that reports an error is
    noted as [None] and the next message (which may be the same again) tried; after
    any other the server has its turn and one Read follows. *)
Fixpoint attempts (C : Crypto) (CE : cenv) (SE : senv) (o : copts) (ses : csession) (n : N) (ps : list bytes)
    (cs : cst) (ss : sst) : list (option (option rd_result)) * cst * sst :=
  match ps with
  | [] => ([], cs, ss)
  | p :: ps' =>
      match crun C CE (client_write C o ses p) cs with
      | (Some (WrConn _ false), c1) =>
          let '(_, s1) := srun C SE (conn_body C) (set_in ss (sent_by_client cs c1)) in
          let '(r, c2) := crun C CE (client_read C o ses n) (c_set_in c1 (sent_by_server ss s1)) in
          let '(rs, c3, s3) := attempts C CE SE o ses n ps' c2 s1 in (Some r :: rs, c3, s3)
      | (_, c1) =>
          let '(rs, c3, s3) := attempts C CE SE o ses n ps' c1 ss in (None :: rs, c3, s3)
      end
  end.

(** The messages whose Write reported no error. *)
Fixpoint written {A} (ps : list bytes) (rs : list (option A)) : list bytes :=
  match ps, rs with
  | p :: ps', Some _ :: rs' => p :: written ps' rs'
  | _ :: ps', None :: rs' => written ps' rs'
  | _, _ => []
  end.
