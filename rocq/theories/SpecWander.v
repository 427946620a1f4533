(** Vocabulary for a program as in [SpecPersist] whose address changes as well. *)
From Verif Require Import Bytes Crypto Wire Replay Server ServerSeq Keys Client ClientSeq Udp SpecUdp SpecUdpLoss SpecUdpDup SpecRoam SpecRestart SpecPersist.

(** [Move a]: from now on the server sees the program at [a]. *)
Inductive episode := Stay (e : incident) | Move (a : bytes).
Definition words (l : list episode) : list bytes := flat_map (fun e => match e with Stay (Say p) => [p] | _ => [] end) l.
Definition places (l : list episode) : list bytes := flat_map (fun e => match e with Move a => [a] | _ => [] end) l.
Definition upsets (l : list episode) : nat := length (filter (fun e => match e with Stay (Say _) => false | _ => true end) l).

Section Wander.
Variables (C : Crypto) (CEs : nat -> cenv) (SE : senv) (hostof : bytes -> option bytes) (chunk : nat -> N) (send : nat -> bytes -> bool)
  (srv : bytes) (o : copts) (host : bytes) (n : N).

(** As [persist]; the program is at [me]. *)
Fixpoint wander (k : nat) (me : bytes) (cl : option uclient) (l : list episode) (sn : unet) (ss : sst) : list (option rd_result) * (nat * sst) :=
  match l with
  | [] => ([], (k, ss))
  | Move a :: l' => wander k a cl l' sn ss
  | Stay Restart :: l' => wander k me cl l' (reopen sn) (reboot ss)
  | Stay (Drop keep) :: l' => wander k me cl l' sn (drop_sessions keep ss)
  | Stay (Say p) :: l' =>
      match cl with
      | None =>
          let '(r, (cl', (sn', ss'))) := dial_and_ask C CEs SE hostof chunk send me srv o host n k p sn ss in
          let '(rs, z) := wander (S k) me cl' l' sn' ss' in (r ++ rs, z)
      | Some c =>
          let '(r, (c', (sn', ss'))) := ask C SE hostof chunk send me srv o n c p sn ss in
          if says_unknown r
          then
            let '(r2, (cl', (sn2, ss2))) := dial_and_ask C CEs SE hostof chunk send me srv o host n k p sn' ss' in
            let '(rs, z) := wander (S k) me cl' l' sn2 ss2 in (r2 ++ rs, z)
          else let '(rs, z) := wander k me (Some c') l' sn' ss' in (r ++ rs, z)
      end
  end.
End Wander.
