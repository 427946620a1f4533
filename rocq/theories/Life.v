(** The life of a server: /repo/server.go StartTCP 137-172, handleConnection
    174-234, StartUDP 236-255, handlePacketConnection 257-335, Close 337-347, with
    any number of listeners, connections, datagrams and calls of Close, and any
    schedule.

    What a request does is not of interest here: reading one and handling one are
    single steps that succeed or fail (see Server.v and Conc.v for what happens in
    them). Go's sync.WaitGroup is modelled step by step, as its misuse is: the
    state word (counter and number of waiters) changes atomically, [Add] that
    reaches zero with waiters re-reads it, stores 0 and wakes the waiters, [Wait]
    re-reads it when woken. A panic that nobody recovers stops the process.

    Not modelled: failure to listen, the logger, secretManager.Close (server.go:342),
    which Close calls after Wait. *)
From Verif Require Import Bytes ClientConc.

Inductive lpc :=
| TNone                                             (* not a goroutine yet *)
(* StartTCP's goroutine *)
| AQuit                                             (* 153-157 select on quit *)
| AAccept                                           (* 159 Accept *)
| AAdd                                              (* 165 wg.Add(1) *)
| ASpawn                                            (* 166 go handleConnection *)
| AEnd
(* handleConnection *)
| HQuit                                             (* 188-192 *)
| HRead                                             (* 194-224 deadlines, ParseRequestCommon, version *)
| HHandle                                           (* 226 handler.Handle *)
| HClose                                            (* 176-181 deferred: recover, conn.Close *)
| HDone                                             (* 182 wg.Done *)
| HLast (w : nat)                                   (* Add: the counter reached 0 and [w] wait; Load *)
| HRel (w : nat)                                    (* Add: Store(0), wake [w] *)
| HEnd
(* handlePacketConnection *)
| PQuit                                             (* 267-271 *)
| PRecv                                             (* 280-284 Receive *)
| PSpawn                                            (* 286 go *)
| PEnd
| DHandle                                           (* 287-333 *)
| DEnd
(* Close *)
| KClose                                            (* 339 close(s.quit) *)
| KWait                                             (* 340 wg.Wait: Load, CAS *)
| KBlocked                                          (* Wait: semacquire *)
| KWoken                                            (* Wait: Load after waking up *)
| KReturned
| KPanicked.

Inductive lev :=
| EAccept                                           (* a TCP connection was accepted *)
| EAdd
| ESpawn (j : nat)                                  (* goroutine [j] handles it *)
| ERead                                             (* a request was read from a TCP connection *)
| EHandle                                           (* a TCP request was handled *)
| EConnClosed
| EDgram                                            (* a datagram was received *)
| EDHandle                                          (* a datagram was handled *)
| EQuit                                             (* Close closed the channel *)
| EReturned                                         (* Close returned *)
| EPanic.                                           (* Close panicked *)

Record lst := {
  l_pc : nat -> lpc; l_quit : bool; l_v : Z; l_w : nat; l_sema : nat; l_crashed : bool;
  l_trace : list (nat * lev) }.                      (* newest first *)

Definition l0 : lst := {|
  l_pc := fun _ => TNone; l_quit := false; l_v := 0; l_w := 0; l_sema := 0; l_crashed := false; l_trace := [] |}.

Definition l_go (s : lst) (i : nat) (p : lpc) : lst := {|
  l_pc := upd (l_pc s) i p; l_quit := l_quit s; l_v := l_v s; l_w := l_w s; l_sema := l_sema s;
  l_crashed := l_crashed s; l_trace := l_trace s |}.
Definition l_log (s : lst) (i : nat) (e : lev) : lst := {|
  l_pc := l_pc s; l_quit := l_quit s; l_v := l_v s; l_w := l_w s; l_sema := l_sema s;
  l_crashed := l_crashed s; l_trace := (i, e) :: l_trace s |}.
Definition l_wg (s : lst) (v : Z) (w sema : nat) : lst := {|
  l_pc := l_pc s; l_quit := l_quit s; l_v := v; l_w := w; l_sema := sema;
  l_crashed := l_crashed s; l_trace := l_trace s |}.
Definition l_close_quit (s : lst) : lst := {|
  l_pc := l_pc s; l_quit := true; l_v := l_v s; l_w := l_w s; l_sema := l_sema s;
  l_crashed := l_crashed s; l_trace := l_trace s |}.
Definition l_crash (s : lst) : lst := {|
  l_pc := l_pc s; l_quit := l_quit s; l_v := l_v s; l_w := l_w s; l_sema := l_sema s;
  l_crashed := true; l_trace := l_trace s |}.

(** What the environment decides: what a new goroutine does, whether a call
    succeeds, the number of a goroutine that is started. *)
Inductive choice := ChTCP | ChUDP | ChClose | ChOk | ChErr | ChNew (j : nat).

(** One step of goroutine [i]; [None]: not possible. *)
Definition ldo (s : lst) (i : nat) (c : choice) : option lst :=
  if l_crashed s then None else
  match l_pc s i, c with
  | TNone, ChTCP => Some (l_go s i AQuit)
  | TNone, ChUDP => Some (l_go s i PQuit)
  | TNone, ChClose => Some (l_go s i KClose)

  | AQuit, ChOk => Some (l_go s i (if l_quit s then AEnd else AAccept))
  | AAccept, ChOk => Some (l_log (l_go s i AAdd) i EAccept)
  | AAccept, ChErr => Some (l_go s i AQuit)
  | AAdd, ChOk =>
      let s' := l_log (l_wg s (l_v s + 1) (l_w s) (l_sema s)) i EAdd in
      Some (if negb (Nat.eqb (l_w s) 0) && (l_v s + 1 =? 1)%Z then l_crash s' else l_go s' i ASpawn)
  | ASpawn, ChNew j =>
      match l_pc s j with
      | TNone => Some (l_log (l_go (l_go s j HQuit) i AQuit) i (ESpawn j))
      | _ => None
      end

  | HQuit, ChOk => Some (l_go s i (if l_quit s then HClose else HRead))
  | HRead, ChOk => Some (l_log (l_go s i HHandle) i ERead)
  | HRead, ChErr => Some (l_go s i HClose)
  | HHandle, ChOk => Some (l_log (l_go s i HQuit) i EHandle)
  | HHandle, ChErr => Some (l_log (l_go s i HClose) i EHandle)
  | HClose, ChOk => Some (l_log (l_go s i HDone) i EConnClosed)
  | HDone, ChOk =>
      let v := (l_v s - 1)%Z in
      let s' := l_wg s v (l_w s) (l_sema s) in
      Some (if (v <? 0)%Z then l_crash s'
            else if (0 <? v)%Z || Nat.eqb (l_w s) 0 then l_go s' i HEnd
            else l_go s' i (HLast (l_w s)))
  | HLast w, ChOk => Some (if (l_v s =? 0)%Z && Nat.eqb (l_w s) w then l_go s i (HRel w) else l_crash s)
  | HRel w, ChOk => Some (l_go (l_wg s 0 0 (l_sema s + w)) i HEnd)

  | PQuit, ChOk => Some (l_go s i (if l_quit s then PEnd else PRecv))
  | PRecv, ChOk => Some (l_log (l_go s i PSpawn) i EDgram)
  | PRecv, ChErr => Some (l_go s i PQuit)
  | PSpawn, ChNew j =>
      match l_pc s j with
      | TNone => Some (l_go (l_go s j DHandle) i PQuit)
      | _ => None
      end
  | DHandle, ChOk => Some (l_log (l_go s i DEnd) i EDHandle)
  | DHandle, ChErr => Some (l_go s i DEnd)

  | KClose, ChOk =>
      Some (if l_quit s then l_log (l_go s i KPanicked) i EPanic else l_log (l_go (l_close_quit s) i KWait) i EQuit)
  | KWait, ChOk =>
      Some (if (l_v s =? 0)%Z then l_log (l_go s i KReturned) i EReturned
            else l_go (l_wg s (l_v s) (S (l_w s)) (l_sema s)) i KBlocked)
  | KBlocked, ChOk =>
      match l_sema s with
      | O => None
      | S n => Some (l_go (l_wg s (l_v s) (l_w s) n) i KWoken)
      end
  | KWoken, ChOk =>
      Some (if (l_v s =? 0)%Z && Nat.eqb (l_w s) 0 then l_log (l_go s i KReturned) i EReturned
            else l_log (l_go s i KPanicked) i EPanic)
  | _, _ => None
  end.

Inductive lreach : lst -> Prop :=
| LInit : lreach l0
| LStep s i c s' : lreach s -> ldo s i c = Some s' -> lreach s'.

(** A schedule. *)
Fixpoint lrun (s : lst) (l : list (nat * choice)) : option lst :=
  match l with
  | [] => Some s
  | (i, c) :: l' => match ldo s i c with Some s' => lrun s' l' | None => None end
  end.
