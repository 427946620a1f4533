(** /repo/client_pool.go, with any number of goroutines calling Get and Close of
    the pool and Close of the clients it handed out.

    The mutex, the unbuffered channel and the parking of receivers are modelled;
    everything done while the mutex is held is cut into steps where other
    goroutines could see a difference. Which client a dial yields, whether it
    fails, whether a connection answers the Hello, and whether closing a
    connection reports an error are arbitrary. Simplified: numberOfClients does
    not wrap; a goroutine that panics stops there (deferred unlocks are done); a
    connection whose close reported an error counts as closed; Read and Write of
    borrowers appear only as arbitrary changes of the client's buffer. *)
From Verif Require Import Bytes ClientConc.

(** What a put returns to. *)
Inductive pcont :=
| KUser                   (* Client.Close called by the user *)
| KDead (w : bool).       (* client_pool.go:52 or (true) 63 *)

Inductive ppc :=
| TIdle
| TGet                    (* 43: before Lock *)
| TLoop                   (* 45: lock held *)
| TTest (c : nat) (w : bool)   (* 49 or (true) 60: before testOnBorrow *)
| TDead (c : nat) (w : bool)   (* 52 or (true) 63: before client.Close() *)
| TAgain (w : bool)       (* 53 or (true) 64: before Lock *)
| TUnlocked               (* 59: before the receive *)
| TParked                 (* 59: blocked in the receive *)
| TDial                   (* 71: lock held *)
| TPut (c : nat) (k : pcont)   (* 100: before Lock *)
| TPutL (c : nat) (k : pcont)  (* 103: lock held *)
| TClose                  (* 120: before Lock *)
| TCloseL                 (* 123: lock held *)
| TPanicked.

Inductive pev :=
| EGot (c : nat)                     (* Get returned [c] *)
| EGetErr                            (* Get returned an error *)
| EGive (c : nat)                    (* the user called c.Close() *)
| EDial (c : nat)                    (* a connection was opened *)
| EShut (c : nat)                    (* its connection was closed *)
| ETest (c : nat) (ok : bool)
| EPoolClosed                        (* Close emptied the pool *)
| EPoolErr                           (* Close returned an error *)
| EPanic.

Record pst := {
  p_lock : option nat; p_idle : list nat; p_num : Z; p_closed : bool; p_session : option nat;
  p_next : nat; p_nexts : nat;             (* clients and sessions made so far *)
  cl_session : nat -> nat; cl_open : nat -> bool; cl_buf : nat -> bytes;
  p_pc : nat -> ppc; p_trace : list (nat * pev) }.

(** client_pool.go:24-37 [NewClientPool] *)
Definition p0 : pst :=
  {| p_lock := None; p_idle := []; p_num := 0; p_closed := false; p_session := None; p_next := 0; p_nexts := 0;
     cl_session := fun _ => 0%nat; cl_open := fun _ => false; cl_buf := fun _ => []; p_pc := fun _ => TIdle; p_trace := [] |}.

(** Next program counter and events of goroutine [i]. *)
Definition p_to (s : pst) (i : nat) (p : ppc) (ev : list pev) : pst :=
  {| p_lock := p_lock s; p_idle := p_idle s; p_num := p_num s; p_closed := p_closed s; p_session := p_session s;
     p_next := p_next s; p_nexts := p_nexts s; cl_session := cl_session s; cl_open := cl_open s; cl_buf := cl_buf s;
     p_pc := upd (p_pc s) i p; p_trace := map (fun e => (i, e)) ev ++ p_trace s |}.
Definition set_lock (s : pst) (l : option nat) : pst :=
  {| p_lock := l; p_idle := p_idle s; p_num := p_num s; p_closed := p_closed s; p_session := p_session s;
     p_next := p_next s; p_nexts := p_nexts s; cl_session := cl_session s; cl_open := cl_open s; cl_buf := cl_buf s;
     p_pc := p_pc s; p_trace := p_trace s |}.
Definition set_idle (s : pst) (l : list nat) : pst :=
  {| p_lock := p_lock s; p_idle := l; p_num := p_num s; p_closed := p_closed s; p_session := p_session s;
     p_next := p_next s; p_nexts := p_nexts s; cl_session := cl_session s; cl_open := cl_open s; cl_buf := cl_buf s;
     p_pc := p_pc s; p_trace := p_trace s |}.
Definition set_num (s : pst) (n : Z) : pst :=
  {| p_lock := p_lock s; p_idle := p_idle s; p_num := n; p_closed := p_closed s; p_session := p_session s;
     p_next := p_next s; p_nexts := p_nexts s; cl_session := cl_session s; cl_open := cl_open s; cl_buf := cl_buf s;
     p_pc := p_pc s; p_trace := p_trace s |}.
Definition set_buf (s : pst) (c : nat) (b : bytes) : pst :=
  {| p_lock := p_lock s; p_idle := p_idle s; p_num := p_num s; p_closed := p_closed s; p_session := p_session s;
     p_next := p_next s; p_nexts := p_nexts s; cl_session := cl_session s; cl_open := cl_open s; cl_buf := upd (cl_buf s) c b;
     p_pc := p_pc s; p_trace := p_trace s |}.
(** client.go:426-433 [close] *)
Definition shut (s : pst) (c : nat) : pst :=
  {| p_lock := p_lock s; p_idle := p_idle s; p_num := p_num s; p_closed := p_closed s; p_session := p_session s;
     p_next := p_next s; p_nexts := p_nexts s; cl_session := cl_session s;
     cl_open := upd (cl_open s) c false; cl_buf := upd (cl_buf s) c [];
     p_pc := p_pc s; p_trace := p_trace s |}.
Definition shut_all (s : pst) (l : list nat) : pst := fold_left shut l s.
(** client_pool.go:71-95: the new client, with the pool's session or, if there is
    none yet, a new one that becomes the pool's. *)
Definition dialled (s : pst) : pst :=
  let c := p_next s in
  let '(ses, n) := match p_session s with Some ses => (ses, p_nexts s) | None => (p_nexts s, S (p_nexts s)) end in
  {| p_lock := p_lock s; p_idle := p_idle s; p_num := (p_num s + 1)%Z; p_closed := p_closed s; p_session := Some ses;
     p_next := S c; p_nexts := n; cl_session := upd (cl_session s) c ses; cl_open := upd (cl_open s) c true;
     cl_buf := upd (cl_buf s) c []; p_pc := p_pc s; p_trace := p_trace s |}.
(** client_pool.go:129-132, and the channel is closed. *)
Definition emptied (s : pst) : pst :=
  {| p_lock := p_lock s; p_idle := []; p_num := 0; p_closed := true; p_session := None;
     p_next := p_next s; p_nexts := p_nexts s; cl_session := cl_session s; cl_open := cl_open s; cl_buf := cl_buf s;
     p_pc := p_pc s; p_trace := p_trace s |}.

Definition after_put (k : pcont) : ppc := match k with KUser => TIdle | KDead w => TAgain w end.
Definition shut_events (l : list nat) : list pev := rev (map EShut l).

Inductive pstep (maxidle maxopen : Z) (s : pst) (i : nat) : pst -> Prop :=
(* calls by the user *)
| SGet : p_pc s i = TIdle -> pstep maxidle maxopen s i (p_to s i TGet [])
| SGive c : p_pc s i = TIdle -> (exists j, In (j, EGot c) (p_trace s)) ->
    pstep maxidle maxopen s i (p_to s i (TPut c KUser) [EGive c])
| SPoolClose : p_pc s i = TIdle -> pstep maxidle maxopen s i (p_to s i TClose [])
| SUse c b : p_pc s i = TIdle -> (exists j, In (j, EGot c) (p_trace s)) ->
    pstep maxidle maxopen s i (set_buf s c b)
(* Get, 42-97 *)
| SGetLock : p_pc s i = TGet -> p_lock s = None ->
    pstep maxidle maxopen s i (p_to (set_lock s (Some i)) i TLoop [])
| SPop c l : p_pc s i = TLoop -> p_idle s = c :: l ->
    pstep maxidle maxopen s i (p_to (set_lock (set_idle s l) None) i (TTest c false) [])
| STestOk c w : p_pc s i = TTest c w ->
    pstep maxidle maxopen s i (p_to s i TIdle [EGot c; ETest c true])
| STestBad c w : p_pc s i = TTest c w ->
    pstep maxidle maxopen s i (p_to s i (TDead c w) [ETest c false])
| SDead c w : p_pc s i = TDead c w ->
    pstep maxidle maxopen s i (p_to s i (TPut c (KDead w)) [])
| SAgain w : p_pc s i = TAgain w -> p_lock s = None ->
    pstep maxidle maxopen s i
      (p_to (set_num (set_lock s (Some i)) (p_num s - 1)%Z) i (if w then TDial else TLoop) [])
| SFull : p_pc s i = TLoop -> p_idle s = [] -> (maxopen <= p_num s)%Z ->
    pstep maxidle maxopen s i (p_to (set_lock s None) i TUnlocked [])
| SRoom : p_pc s i = TLoop -> p_idle s = [] -> (p_num s < maxopen)%Z ->
    pstep maxidle maxopen s i (p_to s i TDial [])
| SPark : p_pc s i = TUnlocked -> p_closed s = false ->
    pstep maxidle maxopen s i (p_to s i TParked [])
| SNil : p_pc s i = TUnlocked \/ p_pc s i = TParked -> p_closed s = true ->
    (* the receive yields nil and testOnBorrow dereferences it *)
    pstep maxidle maxopen s i (p_to s i TPanicked [EPanic])
| SDialErr : p_pc s i = TDial ->
    pstep maxidle maxopen s i (p_to (set_lock s None) i TIdle [EGetErr])
| SDialOk : p_pc s i = TDial ->
    pstep maxidle maxopen s i (p_to (set_lock (dialled s) None) i TIdle [EGot (p_next s); EDial (p_next s)])
(* put, 99-116 *)
| SPutLock c k : p_pc s i = TPut c k -> p_lock s = None ->
    pstep maxidle maxopen s i (p_to (set_lock s (Some i)) i (TPutL c k) [])
| SPutPanic c k : p_pc s i = TPutL c k -> p_closed s = true ->
    (* send on a closed channel *)
    pstep maxidle maxopen s i (p_to (set_lock s None) i TPanicked [EPanic])
| SHandOver c k j : p_pc s i = TPutL c k -> p_closed s = false -> p_pc s j = TParked ->
    pstep maxidle maxopen s i (p_to (p_to (set_lock s None) j (TTest c true) []) i (after_put k) [])
| SSurplus c k : p_pc s i = TPutL c k -> p_closed s = false -> (forall j, p_pc s j <> TParked) ->
    (maxidle <= Z.of_nat (length (p_idle s)))%Z ->
    pstep maxidle maxopen s i
      (p_to (shut (set_num (set_lock s None) (p_num s - 1)%Z) c) i (after_put k) [EShut c])
| SKeep c k : p_pc s i = TPutL c k -> p_closed s = false -> (forall j, p_pc s j <> TParked) ->
    (Z.of_nat (length (p_idle s)) < maxidle)%Z ->
    pstep maxidle maxopen s i
      (p_to (set_lock (set_idle s (p_idle s ++ [c])) None) i (after_put k) [])
(* Close, 119-135 *)
| SCloseLock : p_pc s i = TClose -> p_lock s = None ->
    pstep maxidle maxopen s i (p_to (set_lock s (Some i)) i TCloseL [])
| SCloseErr a c b : p_pc s i = TCloseL -> p_idle s = a ++ c :: b ->
    pstep maxidle maxopen s i
      (p_to (set_lock (shut_all s (a ++ [c])) None) i TIdle (EPoolErr :: shut_events (a ++ [c])))
| SCloseOk : p_pc s i = TCloseL -> p_closed s = false ->
    pstep maxidle maxopen s i
      (p_to (set_lock (emptied (shut_all s (p_idle s))) None) i TIdle (EPoolClosed :: shut_events (p_idle s)))
| SClosePanic : p_pc s i = TCloseL -> p_closed s = true ->
    (* close of a closed channel *)
    pstep maxidle maxopen s i
      (p_to (set_lock (emptied (shut_all s (p_idle s))) None) i TPanicked (EPanic :: EPoolClosed :: shut_events (p_idle s))).

Inductive preachable (maxidle maxopen : Z) : pst -> Prop :=
| PInit : preachable maxidle maxopen p0
| PNext s s' i : preachable maxidle maxopen s -> pstep maxidle maxopen s i s' -> preachable maxidle maxopen s'.
