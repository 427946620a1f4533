(** Vocabulary for an application that repeats a request until it is answered. *)
From Verif Require Import Bytes Crypto Wire Server ServerSeq MultiConn SpecMulti Keys Client ClientSeq Udp SpecUdp SpecUdpLoss.

(** The loop an application runs over UDP: Write the message, Read; a Read that
    succeeded ends it, one that failed has it start again. [fs] says what becomes
    of the datagrams of every attempt; when it is used up the application gives
    up. The result is what Read gave and the number of attempts made. *)
Section Insist.
Variables (C : Crypto) (CE : cenv) (SE : senv) (hostof : bytes -> option bytes) (chunk : nat -> N) (send : nat -> bytes -> bool)
  (me srv : bytes) (o : copts) (ses : csession) (n : N) (p : bytes).

Fixpoint insist (fs : list fate) (x : udpc * unet) (cs : cst) (sn : unet) (ss : sst) :
    (option bytes * nat) * (((udpc * unet) * cst) * (unet * sst)) :=
  match fs with
  | [] => ((None, 0%nat), ((x, cs), (sn, ss)))
  | ft :: fs' =>
      let '(_, ((u, net), c1)) := ucrun C CE chunk send (client_write C o ses p) x cs in
      let '(ds, (sn1, s1)) := serve_lossy C SE hostof chunk send me ft (left_since (snd x) net) sn ss in
      let '(r, (x2, c2)) := ucrun C CE chunk send (client_read C o ses n) (u, arrive_all srv ds net) c1 in
      match r with
      | Some (RdOk m true) => ((Some m, 1%nat), ((x2, c2), (sn1, s1)))
      | _ => let '((a, k), z) := insist fs' x2 c2 sn1 s1 in ((a, S k), z)
      end
  end.
End Insist.

(** What the handler saw between two states is the message [p], [k] times. *)
Definition handled_times (p : bytes) (k : nat) (s s' : sst) : Prop :=
  exists l, seen (s_calls s') = seen (s_calls s) ++ l /\ length l = k /\ Forall (fun q => snd q = p) l.
Definition fate_eqb (a b : fate) : bool :=
  match a, b with Arrives, Arrives | RequestLost, RequestLost | ReplyLost, ReplyLost => true | _, _ => false end.
Definition count_fate (a : fate) (fs : list fate) : nat := length (filter (fate_eqb a) fs).
