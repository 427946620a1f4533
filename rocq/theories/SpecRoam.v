(** Vocabulary for a client over UDP whose address, as the server sees it, changes:
    an address translator gives it another port or another public address. *)
From Verif Require Import Bytes Crypto Wire Server ServerSeq Keys Client ClientSeq Udp SpecUdp SpecUdpLoss.

(** For every message a Write, the exchange at the server, which sees the request
    come from the address beside the message, and a Read. *)
Section Roam.
Variables (C : Crypto) (CE : cenv) (SE : senv) (hostof : bytes -> option bytes) (chunk : nat -> N) (send : nat -> bytes -> bool)
  (srv : bytes) (o : copts) (ses : csession) (n : N).

Fixpoint roam (rs : list (bytes * bytes)) (x : udpc * unet) (cs : cst) (sn : unet) (ss : sst) :
    list (option rd_result) * (((udpc * unet) * cst) * (unet * sst)) :=
  match rs with
  | [] => ([], ((x, cs), (sn, ss)))
  | (p, a) :: rs' =>
      let '(_, ((u, net), c1)) := ucrun C CE chunk send (client_write C o ses p) x cs in
      let '(_, (sn1, s1)) := udp_exchange C SE hostof chunk send (arrive_all a (left_since (snd x) net) sn) ss in
      let '(r, (x2, c2)) := ucrun C CE chunk send (client_read C o ses n) (u, arrive_all srv (left_since sn sn1) net) c1 in
      let '(l, z) := roam rs' x2 c2 sn1 s1 in (r :: l, z)
  end.
End Roam.

(** The messages sent from where [home] holds, with their counters. *)
Fixpoint from_home (home : bytes -> bool) (c : N) (rs : list (bytes * bytes)) : list (N * bool * bytes) :=
  match rs with
  | [] => []
  | (p, a) :: l => (if home a then [(c, true, p)] else []) ++ from_home home (c + 1) l
  end.
