(** Definitions for C174: Read called again after a timeout. *)
From Verif Require Import Bytes Crypto Client ClientSeq Timed.

(** Successive calls of Read with slices of the given lengths; the next call is
    made when the last has returned. *)
Fixpoint timed_reads (C : Crypto) (E : cenv) (delay : nat -> N) (rto wto : N) (reply : bool) (ses : csession) (ns : list N) (t : tio) (s : cst)
  : list (option rd_result) * (tio * cst) :=
  match ns with
  | [] => ([], (t, s))
  | n :: ns' =>
      let '(r, (t1, s1)) := timed_read C E delay rto wto reply ses n t s in
      let '(rs, x) := timed_reads C E delay rto wto reply ses ns' t1 s1 in (r :: rs, x)
  end.

(** Read reports the error of the connection that a passed deadline is. *)
Definition reads_timeout : option rd_result := Some (RdErr (RdParse Parser.EIO)).
