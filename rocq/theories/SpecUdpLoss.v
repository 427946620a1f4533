(** Vocabulary for a conversation over UDP that loses datagrams. *)
From Verif Require Import Bytes Crypto Wire Server ServerSeq Keys Client ClientSeq Udp SpecUdp.

(** What becomes of a request and its reply. *)
Inductive fate := Arrives | RequestLost | ReplyLost.

(** The datagrams that left a socket between two states. *)
Definition left_since (n n' : unet) : list bytes := map snd (skipn (length (n_out n)) (n_out n')).
Definition arrive_all (a : bytes) (ds : list bytes) (n : unet) : unet := fold_left (fun n d => arrive a d n) ds n.

(** For every message a Write, the exchange at the server unless the request is
    lost, and a positive number of Reads; the client is at [me], the server at
    [srv], each with its own socket. *)
Section Lossy.
Variables (C : Crypto) (CE : cenv) (SE : senv) (hostof : bytes -> option bytes) (chunk : nat -> N) (send : nat -> bytes -> bool)
  (me srv : bytes) (o : copts) (ses : csession) (n : N).

Definition serve_lossy (ft : fate) (ds : list bytes) (sn : unet) (ss : sst) : list bytes * (unet * sst) :=
  match ft with
  | RequestLost => ([], (sn, ss))
  | _ => let '(_, (sn', ss')) := udp_exchange C SE hostof chunk send (arrive_all me ds sn) ss in
         (match ft with Arrives => left_since sn sn' | _ => [] end, (sn', ss'))
  end.
Fixpoint lossy (rs : list (bytes * fate * nat)) (x : udpc * unet) (cs : cst) (sn : unet) (ss : sst) :
    list (list (option rd_result)) * (((udpc * unet) * cst) * (unet * sst)) :=
  match rs with
  | [] => ([], ((x, cs), (sn, ss)))
  | (p, ft, k) :: rs' =>
      let '(_, ((u, net), c1)) := ucrun C CE chunk send (client_write C o ses p) x cs in
      let '(ds, (sn1, s1)) := serve_lossy ft (left_since (snd x) net) sn ss in
      let '(r, (x2, c2)) := udp_reads C CE chunk send o ses n (S k) (u, arrive_all srv ds net) c1 in
      let '(l, z) := lossy rs' x2 c2 sn1 s1 in (r :: l, z)
  end.
End Lossy.

(** A round brought the reply to its Read if nothing was lost, and an error if
    something was; Reads beyond the first fail. *)
Definition failed (r : option rd_result) : Prop := exists e, r = Some (RdErr e).
Definition round_good (f : bytes -> bytes) (q : bytes * fate * nat) (rs : list (option rd_result)) : Prop :=
  let '(p, ft, k) := q in
  length rs = S k /\
  match ft with
  | Arrives => exists es, rs = Some (RdOk (f p) true) :: es /\ Forall failed es
  | _ => Forall failed rs
  end.

(** The messages whose requests were not lost, with their counters. *)
Fixpoint heard (c : N) (rs : list (bytes * fate * nat)) : list (N * bool * bytes) :=
  match rs with
  | [] => []
  | (p, RequestLost, _) :: l => heard (c + 1) l
  | (p, _, _) :: l => (c, true, p) :: heard (c + 1) l
  end.
