(** A user of the chat example, /repo/examples/chat/cmd/user/main.go:151-311: the
    connections to the other users, as an interleaving of any number of
    notifications and of the goroutine that sends messages.

    The critical sections (229-234, 241-247, 281-287) are atomic steps. Dialling
    (190-224) happens before the lock is taken.

    Simplified: JSON and HTTP work; a write to a connection that fails is only
    logged (283-285) and is not told apart from one that succeeds; the channel to
    [printer] (293-305) always accepts a message, which is so until the program is
    stopped. *)
From Coq Require Import String Permutation.
From Verif Require Import Bytes Kdf.

Definition net_tcp : bytes := str "tcp".
Definition net_udp : bytes := str "udp".

Record ust := {
  u_tab : list (bytes * option nat);    (* otherUsers; [None] is a nil connection *)
  u_open : list nat;                    (* connections that were dialled and not closed *)
  u_pend : list (bytes * option nat);   (* dialled, not in the map yet *)
  u_next : nat;
  u_held : bool;                        (* the mutex is locked for ever *)
  u_dead : bool }.                      (* the program ended with a panic *)

(** main.go:160-168 *)
Definition ust0 : ust :=
  {| u_tab := []; u_open := []; u_pend := []; u_next := 0; u_held := false; u_dead := false |}.

Inductive uev :=
| UDial (n net : bytes) (c : nat)   (* connection [c] was made for [n] *)
| UFail (n : bytes)                 (* it could not be made: no entry, 203-206, 220-223 *)
| UOther (n net : bytes)            (* unknown network *)
| UStore (n : bytes) (c : option nat)
| UClosed (n : bytes) (c : nat)     (* [n] left, its connection was closed *)
| UGone (n : bytes)                 (* [n] left, it was not in the map *)
| UPanic (n : bytes)                (* [n] left, the handler panicked *)
| USend (l : list (bytes * nat))    (* a message to each of these, over these connections *)
| UCrash.

Definition tab_get (t : list (bytes * option nat)) (n : bytes) : option (option nat) :=
  option_map snd (find (fun x => bytes_eqb (fst x) n) t).
Definition tab_del (t : list (bytes * option nat)) (n : bytes) : list (bytes * option nat) :=
  filter (fun x => negb (bytes_eqb (fst x) n)) t.
Definition tab_put (t : list (bytes * option nat)) (n : bytes) (c : option nat) : list (bytes * option nat) :=
  (n, c) :: tab_del t n.

Definition closed (l : list nat) (c : nat) : list nat := filter (fun x => negb (Nat.eqb x c)) l.

Inductive ustep : ust -> uev -> ust -> Prop :=
| us_dial s n net : u_dead s = false -> net = net_tcp \/ net = net_udp ->
    ustep s (UDial n net (u_next s))
      {| u_tab := u_tab s; u_open := u_next s :: u_open s; u_pend := (n, Some (u_next s)) :: u_pend s;
         u_next := S (u_next s); u_held := u_held s; u_dead := false |}
| us_fail s n net : u_dead s = false -> net = net_tcp \/ net = net_udp -> ustep s (UFail n) s
| us_other s n net : u_dead s = false -> net <> net_tcp -> net <> net_udp ->
    (* 225-227: no return *)
    ustep s (UOther n net)
      {| u_tab := u_tab s; u_open := u_open s; u_pend := (n, None) :: u_pend s;
         u_next := u_next s; u_held := u_held s; u_dead := false |}
| us_store s n c p1 p2 : u_dead s = false -> u_held s = false -> u_pend s = p1 ++ (n, c) :: p2 ->
    ustep s (UStore n c)
      {| u_tab := tab_put (u_tab s) n c; u_open := u_open s; u_pend := p1 ++ p2;
         u_next := u_next s; u_held := false; u_dead := false |}
| us_left s n c : u_dead s = false -> u_held s = false -> tab_get (u_tab s) n = Some (Some c) ->
    ustep s (UClosed n c)
      {| u_tab := tab_del (u_tab s) n; u_open := closed (u_open s) c; u_pend := u_pend s;
         u_next := u_next s; u_held := false; u_dead := false |}
| us_gone s n : u_dead s = false -> u_held s = false -> tab_get (u_tab s) n = None ->
    ustep s (UGone n) s
| us_panic s n : u_dead s = false -> u_held s = false -> tab_get (u_tab s) n = Some None ->
    (* 243: Close of a nil connection; net/http recovers, nothing unlocks *)
    ustep s (UPanic n)
      {| u_tab := u_tab s; u_open := u_open s; u_pend := u_pend s;
         u_next := u_next s; u_held := true; u_dead := false |}
| us_send s l : u_dead s = false -> u_held s = false ->
    Permutation (u_tab s) (map (fun x => (fst x, Some (snd x))) l) -> l <> [] ->
    ustep s (USend l) s
| us_crash s n : u_dead s = false -> u_held s = false -> In (n, None) (u_tab s) ->
    (* 283: a write to a nil connection, in a goroutine that recovers nothing *)
    ustep s UCrash
      {| u_tab := u_tab s; u_open := u_open s; u_pend := u_pend s;
         u_next := u_next s; u_held := false; u_dead := true |}.

(** The newest event is first. *)
Inductive ureach : list uev -> ust -> Prop :=
| ur_0 : ureach [] ust0
| ur_step t s e s' : ureach t s -> ustep s e s' -> ureach (e :: t) s'.

(** From any state. *)
Inductive usteps : ust -> list uev -> ust -> Prop :=
| uss_0 s : usteps s [] s
| uss_step s t s' e s'' : usteps s t s' -> ustep s' e s'' -> usteps s (e :: t) s''.

(** main.go:299-301: the name that is shown beside a message. *)
Definition shown (self from : bytes) : bytes := match from with [] => self | _ => from end.

(** main.go:171-179 and 293-305: what is shown of a message that arrived from
    [remote]; the handler ignores the address. *)
Definition received (self remote from : bytes) : bytes := shown self from.

(** ** The URL of a departure, /repo/examples/chat/registry.go:44-48

    net/url splits the fragment at the first '#', then the query at the first '?',
    and decodes %XX in the path; a byte below 32 or 127 before the '#' is an error.
    The server splits and decodes what the client encoded again, which is the same
    path. A path with empty, "." or ".." segments is answered by net/http with a
    redirection, and the client then sends a GET: that is [None] as well. *)
Fixpoint cut (c : N) (s : bytes) : bytes :=
  match s with [] => [] | b :: s => if b2n b =? c then [] else b :: cut c s end.
Fixpoint after_cut (c : N) (s : bytes) : bytes :=
  match s with [] => [] | b :: s => if b2n b =? c then s else after_cut c s end.

Definition hexval (b : byte) : option N :=
  let n := b2n b in
  if (48 <=? n) && (n <=? 57) then Some (n - 48)
  else if (65 <=? n) && (n <=? 70) then Some (n - 55)
  else if (97 <=? n) && (n <=? 102) then Some (n - 87)
  else None.

Fixpoint pct_dec (s : bytes) : option bytes :=
  match s with
  | [] => Some []
  | b :: s =>
      if b2n b =? 37 then
        match s with
        | h :: l :: s' =>
            match hexval h, hexval l, pct_dec s' with
            | Some x, Some y, Some r => Some (n2b (16 * x + y) :: r)
            | _, _, _ => None
            end
        | _ => None
        end
      else option_map (cons b) (pct_dec s)
  end.

Definition is_ctl (b : byte) : bool := (b2n b <? 32) || (b2n b =? 127).

(** The segments of a path. *)
Fixpoint segs (cur : bytes) (s : bytes) : list bytes :=
  match s with
  | [] => [List.rev cur]
  | b :: s => if b2n b =? 47 then List.rev cur :: segs [] s else segs (b :: cur) s
  end.
Definition good_seg (last : bool) (s : bytes) : bool :=
  negb (bytes_eqb s (str ".")) && negb (bytes_eqb s (str "..")) && (last || negb (bytes_eqb s [])).
Fixpoint clean (l : list bytes) : bool :=
  match l with [] => true | [s] => good_seg true s | s :: l => good_seg false s && clean l end.

(** The path of the request that the registry sees. *)
Definition unregister_path (name : bytes) : option bytes :=
  let before := cut 35 name in
  if existsb is_ctl before then None
  else match pct_dec (after_cut 35 name) with
  | None => None
  | Some _ =>
      match pct_dec (cut 63 before) with
      | Some p => if clean (segs [] p) then Some (str "/users/" ++ p) else None
      | None => None
      end
  end.
