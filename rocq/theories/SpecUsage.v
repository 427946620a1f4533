(** Vocabulary for stating how sessions and the octets of requests are used. *)
From Verif Require Import Bytes Parser Crypto Kdf Wire WireSeq Replay SpecReplay Server ServerSeq SpecServer Keys
  Client ClientSeq SpecClient SpecE2E ClientConc SpecClientConc.

(** A client on a new connection whose session has sent [ctr] requests. *)
Definition new_client (ctr : N) : cst :=
  {| c_in := []; c_step := 0; c_sent := []; c_ctr := ctr; c_last := 0; c_buf := []; c_seals := [] |}.

(** One session used for one exchange each on several connections, one after the
    other; only the session's counter is shared. *)
Fixpoint hops (C : Crypto) (o : copts) (ses : csession) (n : N) (l : list (cenv * senv * bytes)) (ctr : N) (ss : sst)
  : list (option rd_result) * sst :=
  match l with
  | [] => ([], ss)
  | (CE, SE, p) :: l' =>
      let '(_, r, c1, s1) := round C CE SE o ses p n (new_client ctr) ss in
      let '(rs, s2) := hops C o ses n l' (c_ctr c1) s1 in (r :: rs, s2)
  end.

(** What concurrent clients handed to their connections, oldest first. *)
Definition handed (k : kst) : list bytes :=
  rev (flat_map (fun x => match snd x with KWrite b _ => [b] | _ => [] end) (k_trace k)).

(** The counters [a], [a + 1], ... *)
Fixpoint from (a : N) (n : nat) : list N :=
  match n with
  | O => []
  | S n' => a :: from (a + 1) n'
  end.
