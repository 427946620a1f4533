(** The server's handler as a program that reads the message and writes the reply:
    server.go:19-31 [ServerHandler], action_process.go:169-201. The message is
    given as a [bytes.Buffer]; the reply goes to another, or to [io.Discard] if the
    request wants none. In [Server] a handler is a function from the message to its
    result; here that function is computed from what the handler does.

    Simplified: the handler uses the reader and the writer only through Read and
    Write, and not after it has returned. *)
From Verif Require Import Bytes Server.

(** What a handler does next. Read into a slice of length [n] gives octets and
    whether the error is io.EOF; Write gives a count and whether it failed. *)
CoInductive hprog :=
| HEnd (ok : bool)
| HThrow
| HGet (n : N) (k : bytes * bool -> hprog)
| HPut (b : bytes) (k : N * bool -> hprog).

(** Go's [Read] of bytes.Buffer: what is read, whether io.EOF, what remains. *)
Definition buf_read (n : N) (r : bytes) : (bytes * bool) * bytes :=
  match r with
  | [] => (([], 0 <? n), [])
  | _ => ((takeN n r, false), dropN n r)
  end.
(** [Write] of bytes.Buffer and of io.Discard. *)
Definition out_write (reply : bool) (w b : bytes) : (N * bool) * bytes := ((lenN b, false), if reply then w ++ b else w).

Inductive hev := EGot (n : N) (b : bytes) (eof : bool) | EPut (b : bytes) (n : N) (err : bool) | EEnd (ok : bool) | EThrow.

(** action_process.go:169-193. [None]: not finished within [fuel] steps. *)
Fixpoint hrun (fuel : nat) (reply : bool) (p : hprog) (r w : bytes) : option (hres * list hev) :=
  match fuel with
  | O => None
  | S f =>
      match p with
      | HEnd true => Some (HOk w, [EEnd true])
      | HEnd false => Some (HErr, [EEnd false])
      | HThrow => Some (HPanic, [EThrow])
      | HGet n k =>
          let '((b, e), r') := buf_read n r in
          match hrun f reply (k (b, e)) r' w with Some (x, t) => Some (x, EGot n b e :: t) | None => None end
      | HPut b k =>
          let '((c, e), w') := out_write reply w b in
          match hrun f reply (k (c, e)) r w' with Some (x, t) => Some (x, EPut b c e :: t) | None => None end
      end
  end.
(** The handler, given the message [m], ends with [x] having done [t]. *)
Definition runs (h : hprog) (reply : bool) (m : bytes) (x : hres) (t : list hev) : Prop := exists fuel, hrun fuel reply h m [] = Some (x, t).
