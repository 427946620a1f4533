(** Vocabulary for a conversation over UDP in which requests arrive any number of
    times. *)
From Verif Require Import Bytes Crypto Wire Server ServerSeq Keys Client ClientSeq Udp SpecUdp SpecUdpLoss.

(** For every message a Write, as many copies of the request as the network
    makes, handled by the server one after the other, and a positive number of
    Reads; all answers arrive in order. *)
Section Copied.
Variables (C : Crypto) (CE : cenv) (SE : senv) (hostof : bytes -> option bytes) (chunk : nat -> N) (send : nat -> bytes -> bool)
  (me srv : bytes) (o : copts) (ses : csession) (n : N).

Fixpoint serve_each (ds : list bytes) (sn : unet) (ss : sst) : list bytes * (unet * sst) :=
  match ds with
  | [] => ([], (sn, ss))
  | d :: ds' =>
      let '(_, (sn1, s1)) := udp_exchange C SE hostof chunk send (arrive me d sn) ss in
      let '(out, z) := serve_each ds' sn1 s1 in (left_since sn sn1 ++ out, z)
  end.
Fixpoint copied (rs : list (bytes * nat * nat)) (x : udpc * unet) (cs : cst) (sn : unet) (ss : sst) :
    list (list (option rd_result)) * (((udpc * unet) * cst) * (unet * sst)) :=
  match rs with
  | [] => ([], ((x, cs), (sn, ss)))
  | (p, j, k) :: rs' =>
      let '(_, ((u, net), c1)) := ucrun C CE chunk send (client_write C o ses p) x cs in
      let '(ds, (sn1, s1)) := serve_each (concat (repeat (left_since (snd x) net) j)) sn ss in
      let '(r, (x2, c2)) := udp_reads C CE chunk send o ses n (S k) (u, arrive_all srv ds net) c1 in
      let '(l, z) := copied rs' x2 c2 sn1 s1 in (r :: l, z)
  end.
End Copied.

(** Of the Reads of a round none has anything but the reply to its message. *)
Definition round_safe (f : bytes -> bytes) (q : bytes * nat * nat) (rs : list (option rd_result)) : Prop :=
  let '(p, _, k) := q in
  length rs = S k /\ Forall (fun r => r = Some (RdOk (f p) true) \/ failed r) rs.

(** The messages whose requests arrived, with their counters. *)
Fixpoint arrived (c : N) (rs : list (bytes * nat * nat)) : list (N * bool * bytes) :=
  match rs with
  | [] => []
  | (p, O, _) :: l => arrived (c + 1) l
  | (p, S _, _) :: l => (c, true, p) :: arrived (c + 1) l
  end.

(** The elements of a list that got the answer [true]. *)
Fixpoint kept {A} (l : list A) (rs : list bool) : list A :=
  match l, rs with
  | x :: l', r :: rs' => (if r then [x] else []) ++ kept l' rs'
  | _, _ => []
  end.
