(** Vocabulary for a program that uses a client over UDP and dials again when the
    server says that it does not know the client. *)
From Verif Require Import Bytes Crypto Wire Replay Server ServerSeq Keys Client ClientSeq Udp SpecUdp SpecUdpLoss SpecUdpDup SpecRoam SpecRestart.

(** Between two messages the server may be restarted, or its secret manager may
    drop sessions: those whose keys [keep] does not hold. *)
Inductive incident := Say (p : bytes) | Restart | Drop (keep : bytes -> bool).
Definition drop_sessions (keep : bytes -> bool) (s : sst) : sst :=
  {| s_in := s_in s; s_step := s_step s; s_sent := s_sent s; s_map := fun k => if keep k then s_map s k else None;
     s_heap := s_heap s; s_next := s_next s; s_calls := s_calls s |}.
Definition spoken (l : list incident) : list bytes := flat_map (fun e => match e with Say p => [p] | _ => [] end) l.

Definition new_socket : unet := {| n_in := []; n_out := []; n_step := 0; n_closed := false |}.
Definition new_cst : cst := {| c_in := []; c_step := 0; c_sent := []; c_ctr := 0; c_last := 0; c_buf := []; c_seals := [] |}.

Section Persist.
Variables (C : Crypto) (CEs : nat -> cenv) (SE : senv) (hostof : bytes -> option bytes) (chunk : nat -> N) (send : nat -> bytes -> bool)
  (me srv : bytes) (o : copts) (host : bytes) (n : N).

(** A client: its environment, session, socket and state. *)
Definition uclient := (cenv * csession * (udpc * unet) * cst)%type.

(** The [k]-th dial, on a new socket. What the client sends before it reads cannot
    depend on what it reads: the first run, with nothing to read, says what the
    server gets, the second runs with the server's answers. *)
Definition redial (k : nat) (sn : unet) (ss : sst) : option uclient * (unet * sst) :=
  let '(_, ((_, n1), _)) := ucrun C (CEs k) chunk send (handshake C (Some host)) (new_udp false, new_socket) new_cst in
  let '(out, (sn1, s1)) := serve_each C SE hostof chunk send me (left_since new_socket n1) sn ss in
  let '(h, (x, cs)) := ucrun C (CEs k) chunk send (handshake C (Some host)) (new_udp false, arrive_all srv out new_socket) new_cst in
  (match h with Some (inr ses) => Some (CEs k, ses, x, cs) | _ => None end, (sn1, s1)).

(** Write, the exchange at the server, one Read. *)
Definition ask (c : uclient) (p : bytes) (sn : unet) (ss : sst) : list (option rd_result) * (uclient * (unet * sst)) :=
  let '(E, ses, x, cs) := c in
  let '(r, ((x2, c2), z)) := roam C E SE hostof chunk send srv o ses n [(p, me)] x cs sn ss in (r, ((E, ses, x2, c2), z)).

Definition says_unknown (r : list (option rd_result)) : bool :=
  match r with [Some (RdErr (RdRemote code _))] => code =? 3 | _ => false end.

(** Dial, then ask; the program gives up if dialling fails. *)
Definition dial_and_ask (k : nat) (p : bytes) (sn : unet) (ss : sst) : list (option rd_result) * (option uclient * (unet * sst)) :=
  let '(c, (sn1, s1)) := redial k sn ss in
  match c with
  | None => ([None], (None, (sn1, s1)))
  | Some c => let '(r, (c', z)) := ask c p sn1 s1 in (r, (Some c', z))
  end.

(** The program: [k] dials so far. With what it got for each message comes the
    number of dials and the state of the server. *)
Fixpoint persist (k : nat) (cl : option uclient) (l : list incident) (sn : unet) (ss : sst) : list (option rd_result) * (nat * sst) :=
  match l with
  | [] => ([], (k, ss))
  | Restart :: l' => persist k cl l' (reopen sn) (reboot ss)
  | Drop keep :: l' => persist k cl l' sn (drop_sessions keep ss)
  | Say p :: l' =>
      match cl with
      | None => let '(r, (cl', (sn', ss'))) := dial_and_ask k p sn ss in let '(rs, z) := persist (S k) cl' l' sn' ss' in (r ++ rs, z)
      | Some c =>
          let '(r, (c', (sn', ss'))) := ask c p sn ss in
          if says_unknown r
          then let '(r2, (cl', (sn2, ss2))) := dial_and_ask k p sn' ss' in let '(rs, z) := persist (S k) cl' l' sn2 ss2 in (r2 ++ rs, z)
          else let '(rs, z) := persist k (Some c') l' sn' ss' in (r ++ rs, z)
      end
  end.
End Persist.

(** How often sessions may have been lost. *)
Definition losses (l : list incident) : nat := length (filter (fun e => match e with Say _ => false | _ => true end) l).
