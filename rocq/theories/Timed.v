(** Deadlines: /repo/server.go:187-233, /repo/client.go:227-416 and
    /repo/client_pool.go:137-148 on a connection with time.

    Every octet of the input arrives at a given time, and so does the end of the
    input. A Read waits for its octets; when the read deadline passes, or has
    passed, it fails. A Write at or after the write deadline fails and sends
    nothing. Everything else takes the time [delay] gives. Deadlines are absolute,
    as in net.Conn, and stay until set again. Time is in arbitrary units.
    Simplified: a Write that blocks is an answer of the environment ([e_write]),
    with the time [delay] gives. *)
From Verif Require Import Bytes Parser Crypto Wire Replay Server ServerSeq Keys Client ClientSeq.

(** The clock, the arrival times of the unread input, the time of its end, the
    deadlines, the number of effects so far. *)
Record tio := {
  t_now : N; t_arr : list N; t_eof : N; t_rd : option N; t_wd : option N; t_n : nat }.

Definition t_at (t : tio) (now : N) (arr : list N) : tio :=
  {| t_now := now; t_arr := arr; t_eof := t_eof t; t_rd := t_rd t; t_wd := t_wd t; t_n := t_n t |}.
Definition t_pass (delay : nat -> N) (t : tio) : tio :=
  {| t_now := t_now t + delay (t_n t); t_arr := t_arr t; t_eof := t_eof t; t_rd := t_rd t; t_wd := t_wd t; t_n := S (t_n t) |}.
(** SetReadDeadline and SetWriteDeadline of now + timeout, if the timeout is
    positive (server.go:194-204, client.go:311-316, 391-396). *)
Definition t_set_rd (rto : N) (t : tio) : tio :=
  if 0 <? rto then {| t_now := t_now t; t_arr := t_arr t; t_eof := t_eof t; t_rd := Some (t_now t + rto); t_wd := t_wd t; t_n := t_n t |}
  else t.
Definition t_set_wd (wto : N) (t : tio) : tio :=
  if 0 <? wto then {| t_now := t_now t; t_arr := t_arr t; t_eof := t_eof t; t_rd := t_rd t; t_wd := Some (t_now t + wto); t_n := t_n t |}
  else t.

Definition past (d : option N) (now : N) : bool := match d with None => false | Some d => d <=? now end.

Definition latest (l : list N) : N := fold_right N.max 0 l.
(** When [n] of the octets [inp], or the end of the input, are there. *)
Definition due (n : N) (inp : bytes) (t : tio) : N :=
  if n <=? lenN inp then latest (takeN n (t_arr t)) else N.max (latest (t_arr t)) (t_eof t).
(** How many octets arrive before [d]. *)
Fixpoint early (d : N) (arr : list N) : N :=
  match arr with
  | [] => 0
  | a :: r => if a <? d then 1 + early d r else 0
  end.

(** Reading [n] octets: [None] if the octets are read in time, or else how many
    were read before the deadline. *)
Definition t_wait (n : N) (inp : bytes) (t : tio) : option N * tio :=
  if n =? 0 then (None, t)
  else
    let at_ := N.max (t_now t) (due n inp t) in
    match t_rd t with
    | Some d =>
        if at_ <? d then (None, t_at t at_ (dropN n (t_arr t)))
        else let k := if t_now t <? d then N.min (early d (t_arr t)) (lenN inp) else 0 in
             (Some k, t_at t (N.max (t_now t) d) (dropN k (t_arr t)))
    | None => (None, t_at t at_ (dropN n (t_arr t)))
    end.

(** * The server *)
Section server.
Variables (C : Crypto) (E : senv) (delay : nat -> N).

Definition texec {R} (e : seff R) (t : tio) (s : sst) : R * (tio * sst) :=
  match e in seff R return (R * sst) -> R * (tio * sst) with
  | SRead n => fun d =>
      match t_wait n (s_in s) t with
      | (None, t') => (fst d, (t_pass delay t', snd d))
      | (Some k, t') => (inl EIO, (t_pass delay t', set_in s (dropN k (s_in s))))
      end
  | SCopy n => fun d =>
      match t_wait n (s_in s) t with
      | (None, t') => (fst d, (t_pass delay t', snd d))
      | (Some k, t') => ((takeN k (s_in s), Some EIO), (t_pass delay t', set_in s (dropN k (s_in s))))
      end
  | SWrite b => fun d =>
      if past (t_wd t) (t_now t) then ((0, Some WDeadline), (t_pass delay t, add_sent (tick s) b 0))
      else (fst d, (t_pass delay t, snd d))
  | _ => fun d => (fst d, (t_pass delay t, snd d))
  end (sexec C E e s).

Fixpoint trun {A} (p : sprog A) (t : tio) (s : sst) : option A * (tio * sst) :=
  match p with
  | SRet a => (Some a, (t, s))
  | SPanic => (None, (t, s))
  | SDo e k => let '(r, (t', s')) := texec e t s in trun (k r) t' s'
  end.

(** server.go:187-233: one iteration; the deadlines are set after the look at the
    quit channel. *)
Definition tbody (rto wto : N) (t : tio) (s : sst) : option bool * (tio * sst) :=
  let '(q, s1) := sexec C E SQuit s in
  if q then (Some false, (t, s1))
  else trun (one_request C) (t_set_wd wto (t_set_rd rto t)) s1.

Fixpoint tserve (rto wto : N) (fuel : nat) (t : tio) (s : sst) : fate * (tio * sst) :=
  match fuel with
  | O => (OutOfFuel, (t, s))
  | S f => match tbody rto wto t s with
           | (Some true, (t', s')) => tserve rto wto f t' s'
           | (Some false, x) => (Closed, x)
           | (None, x) => (Panicked, x)
           end
  end.
End server.

(** * The client *)
Section client.
Variables (C : Crypto) (E : cenv) (delay : nat -> N).

(** [dl] is what a SetDeadline of the program does. *)
Definition tcexec (dl : tio -> tio) {R} (e : ceff R) (t : tio) (s : cst) : R * (tio * cst) :=
  match e in ceff R return (R * cst) -> R * (tio * cst) with
  | CRead n => fun d =>
      match t_wait n (c_in s) t with
      | (None, t') => (fst d, (t_pass delay t', snd d))
      | (Some k, t') => (inl EIO, (t_pass delay t', c_set_in s (dropN k (c_in s))))
      end
  | CCopy n => fun d =>
      match t_wait n (c_in s) t with
      | (None, t') => (fst d, (t_pass delay t', snd d))
      | (Some k, t') => ((takeN k (c_in s), Some EIO), (t_pass delay t', c_set_in s (dropN k (c_in s))))
      end
  | CWrite b => fun d =>
      if past (t_wd t) (t_now t) then ((0, true), (t_pass delay t, c_add_sent (c_tick s) b 0))
      else (fst d, (t_pass delay t, snd d))
  | CDeadline => fun d => (fst d, (t_pass delay (if fst d then dl t else t), snd d))
  | _ => fun d => (fst d, (t_pass delay t, snd d))
  end (cexec C E e s).

Fixpoint tcrun (dl : tio -> tio) {A} (p : cprog A) (t : tio) (s : cst) : option A * (tio * cst) :=
  match p with
  | CRet a => (Some a, (t, s))
  | CPanic => (None, (t, s))
  | CDo e k => let '(r, (t', s')) := tcexec dl e t s in tcrun dl (k r) t' s'
  end.

(** Read, Write and the handshake of a client with the given timeouts (0: none). A
    SetDeadline in the handshake, if there were one, would set both. *)
Definition with_timeouts (rto wto : N) (reply : bool) : copts :=
  {| co_rto := 0 <? rto; co_wto := 0 <? wto; co_reply := reply |}.
Definition timed_read (rto wto : N) (reply : bool) (ses : csession) (n : N) :=
  tcrun (t_set_rd rto) (client_read C (with_timeouts rto wto reply) ses n).
Definition timed_write (rto wto : N) (reply : bool) (ses : csession) (p : bytes) :=
  tcrun (t_set_wd wto) (client_write C (with_timeouts rto wto reply) ses p).
Definition timed_handshake (rto wto : N) (host : option bytes) :=
  tcrun (fun t => t_set_wd wto (t_set_rd rto t)) (handshake C host).
End client.

(** client_pool.go:137-148 [testOnBorrow] *)
Definition test_on_borrow : cprog bool :=
  let req := enc_req_common hello_request in
  doc w <- cdo (CWrite req);
  let '(n, err) := w in
  if err || negb (n =? lenN req) then CRet false
  else
    doc rc <- clift parse_resp_common;
    match rc with
    | inl _ => CRet false
    | inr rc => CRet (rs_success rc)
    end.
