(** Parsers over io.Reader.

    A parser performs the following operations on the underlying reader, in the
    order in which the Go text performs them:

    - [PRead n]: binary.Read of a value of [n] octets, that is
      io.ReadFull(r, buf[:n]) (encoding/binary.Read reads the exact size of the
      destination; destinations used in /repo/protocol are fixed-size arrays,
      integers and slices allocated beforehand with make);
    - [PCopy n]: io.Copy(&buffer, io.LimitReader(r, n)), which returns the octets
      it could read and the error that stopped it (nil at the limit or at EOF);
    - [PAlloc n]: make([]byte, n) where [n] was announced by the peer. *)
From Verif Require Import Bytes.

(** What ends a byte stream: the peer closed it (io.EOF) or the transport
    reported an error (deadline, reset). *)
Inductive send := EndEOF | EndErr.

(** Why a parser gives up. *)
Inductive perr :=
| EShort   (* stream ended inside the message: io.EOF / io.ErrUnexpectedEOF *)
| EIO      (* transport error *)
| ELimit   (* announced size above the limit *)
| EKey     (* x509.ParsePKIXPublicKey failed or the key is not an *ecdh.PublicKey *)
| ESize.   (* fewer octets than announced (io.Copy based fields) *)

Inductive parser (A : Type) : Type :=
| PRet (a : A)
| PFail (e : perr)
| PRead (n : N) (k : perr + bytes -> parser A)
| PCopy (n : N) (k : bytes * option perr -> parser A)
| PAlloc (n : N) (k : parser A).
Arguments PRet {A}. Arguments PFail {A}. Arguments PRead {A}.
Arguments PCopy {A}. Arguments PAlloc {A}.

Fixpoint pbind {A B} (p : parser A) (f : A -> parser B) : parser B :=
  match p with
  | PRet a => f a
  | PFail e => PFail e
  | PRead n k => PRead n (fun r => pbind (k r) f)
  | PCopy n k => PCopy n (fun r => pbind (k r) f)
  | PAlloc n k => PAlloc n (pbind k f)
  end.

Notation "'dop' x <- p ; q" := (pbind p (fun x => q))
  (at level 60, x pattern, p at next level, right associativity).

(** binary.Read whose error is returned (wrapped or not) by the caller. *)
Definition pread (n : N) : parser bytes :=
  PRead n (fun r => match r with inl e => PFail e | inr b => PRet b end).

Definition palloc (n : N) : parser unit := PAlloc n (PRet tt).

(** ** Interpretation over a flat stream of octets *)

(** io.ReadFull: [n] octets, or an error having consumed what was there. *)
Definition fl_read (n : N) (s : bytes) (e : send) : (perr + bytes) * bytes :=
  if n <=? lenN s then (inr (takeN n s), dropN n s)
  else (inl (match e with EndEOF => EShort | EndErr => EIO end), []).

(** io.Copy from an io.LimitReader: up to [n] octets; EOF is not an error. *)
Definition fl_copy (n : N) (s : bytes) (e : send) : (bytes * option perr) * bytes :=
  if n <=? lenN s then ((takeN n s, None), dropN n s)
  else ((s, match e with EndEOF => None | EndErr => Some EIO end), []).

Fixpoint run {A} (p : parser A) (s : bytes) (e : send) : (perr + A) * bytes :=
  match p with
  | PRet a => (inr a, s)
  | PFail er => (inl er, s)
  | PRead n k => let '(r, s') := fl_read n s e in run (k r) s' e
  | PCopy n k => let '(r, s') := fl_copy n s e in run (k r) s' e
  | PAlloc _ k => run k s e
  end.

(** Sizes passed to make([]byte, n) during a run, in order. *)
Fixpoint allocs {A} (p : parser A) (s : bytes) (e : send) : list N :=
  match p with
  | PRet _ | PFail _ => []
  | PRead n k => let '(r, s') := fl_read n s e in allocs (k r) s' e
  | PCopy n k => let '(r, s') := fl_copy n s e in allocs (k r) s' e
  | PAlloc n k => n :: allocs k s e
  end.

(** Octets accumulated in growing buffers (io.Copy) during a run. *)
Fixpoint buffered {A} (p : parser A) (s : bytes) (e : send) : N :=
  match p with
  | PRet _ | PFail _ => 0
  | PRead n k => let '(r, s') := fl_read n s e in buffered (k r) s' e
  | PCopy n k => let '(r, s') := fl_copy n s e in lenN (fst r) + buffered (k r) s' e
  | PAlloc _ k => buffered k s e
  end.

(** ** Interpretation over TCP segments

    The transport delivers the stream in pieces; each Read call returns at most
    the rest of the current piece. A piece may be empty (Read returning 0, nil).
    [ch_take n cs]: keep calling Read until [n] octets arrived or the stream
    ended (the loop of io.ReadAtLeast and of bytes.Buffer.ReadFrom over a
    LimitedReader). *)
Fixpoint ch_take (n : N) (cs : list bytes) : bytes * list bytes :=
  match cs with
  | [] => ([], [])
  | c :: cs' =>
      if n =? 0 then ([], cs)
      else if lenN c <=? n then
        let '(got, rest) := ch_take (n - lenN c) cs' in (c ++ got, rest)
      else (takeN n c, dropN n c :: cs')
  end.

Definition ch_read (n : N) (cs : list bytes) (e : send) : (perr + bytes) * list bytes :=
  let '(got, rest) := ch_take n cs in
  if lenN got =? n then (inr got, rest)
  else (inl (match e with EndEOF => EShort | EndErr => EIO end), rest).

Definition ch_copy (n : N) (cs : list bytes) (e : send) : (bytes * option perr) * list bytes :=
  let '(got, rest) := ch_take n cs in
  if lenN got =? n then ((got, None), rest)
  else ((got, match e with EndEOF => None | EndErr => Some EIO end), rest).

Fixpoint run_ch {A} (p : parser A) (cs : list bytes) (e : send) : (perr + A) * list bytes :=
  match p with
  | PRet a => (inr a, cs)
  | PFail er => (inl er, cs)
  | PRead n k => let '(r, s') := ch_read n cs e in run_ch (k r) s' e
  | PCopy n k => let '(r, s') := ch_copy n cs e in run_ch (k r) s' e
  | PAlloc _ k => run_ch k cs e
  end.
