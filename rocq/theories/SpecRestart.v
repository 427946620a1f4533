(** Vocabulary for a server over UDP that is restarted. *)
From Verif Require Import Bytes Crypto Wire Replay Server ServerSeq Keys Client ClientSeq Udp SpecUdp SpecUdpLoss SpecRoam.

(** A new process of the server on the old port: no session is left. What was
    sent and which calls were made stays on record. *)
Definition reboot (s : sst) : sst :=
  {| s_in := []; s_step := s_step s; s_sent := s_sent s; s_map := fun _ => None;
     s_heap := fun _ => {| ses_secret := []; ses_win := new_window |}; s_next := 0; s_calls := s_calls s |}.
Definition reopen (n : unet) : unet := {| n_in := []; n_out := n_out n; n_step := n_step n; n_closed := false |}.

(** [Some p]: Write of [p], the exchange at the server, one Read. [None]: the
    server is restarted. *)
Section Restarts.
Variables (C : Crypto) (CE : cenv) (SE : senv) (hostof : bytes -> option bytes) (chunk : nat -> N) (send : nat -> bytes -> bool)
  (me srv : bytes) (o : copts) (ses : csession) (n : N).

Fixpoint restarts (rs : list (option bytes)) (x : udpc * unet) (cs : cst) (sn : unet) (ss : sst) :
    list (option rd_result) * (((udpc * unet) * cst) * (unet * sst)) :=
  match rs with
  | [] => ([], ((x, cs), (sn, ss)))
  | None :: rs' => restarts rs' x cs (reopen sn) (reboot ss)
  | Some p :: rs' =>
      let '(r, ((x2, c2), (sn2, s2))) := roam C CE SE hostof chunk send srv o ses n [(p, me)] x cs sn ss in
      let '(l, z) := restarts rs' x2 c2 sn2 s2 in (r ++ l, z)
  end.
End Restarts.

(** The messages before the first restart, and those after it. *)
Fixpoint before (rs : list (option bytes)) : list bytes := match rs with Some p :: l => p :: before l | _ => [] end.
Fixpoint said (rs : list (option bytes)) : list bytes :=
  match rs with [] => [] | Some p :: l => p :: said l | None :: l => said l end.
Fixpoint after (rs : list (option bytes)) : list bytes :=
  match rs with [] => [] | Some _ :: l => after l | None :: l => said l end.
