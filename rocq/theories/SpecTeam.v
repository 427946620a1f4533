(** Vocabulary for clients that share a session. *)
From Coq Require Import Strings.String.
From Verif Require Import Bytes Crypto Kdf Wire Server ServerSeq MultiConn Client ClientSeq SpecMulti System Team.

(** Every client of the team is about to exchange its messages on a connection
    with nothing in flight; [c0] messages were sent in the session before. *)
Definition teaming (C : Crypto) (tcp : nat -> bool) (inputs : nat -> bytes) (m : mem) (T : nat) (c0 : N) {A}
    (p : nat -> cprog A) : team A :=
  {| z_cl := p;
     z_cs := fun _ => {| ClientSeq.c_in := []; ClientSeq.c_step := 0; ClientSeq.c_sent := []; c_ctr := 0; c_last := 0; c_buf := []; c_seals := [] |};
     z_ctr := c0;
     z_srv := starting C tcp (fun j => if Nat.ltb j T then [] else inputs j) m |}.

(** No connection outside the team uses the entry [key] of the secret manager,
    and it is not collected. *)
Definition team_spares1 (key : bytes) {A} (x : team A) (v : tmove) : Prop :=
  match v with
  | TOther j => next_key (c_prog (t_conn (z_srv x) j)) <> Some key
  | TCollect k => k <> key
  | _ => True
  end.
Fixpoint team_spares (C : Crypto) (CE : nat -> cenv) (E : nat -> senv) (tcp : nat -> bool) (T : nat) (key : bytes) {A}
    (sched : list tmove) (x : team A) : Prop :=
  match sched with
  | [] => True
  | v :: l => team_spares1 key x v /\ match team_move C CE E tcp T x v with
                                      | Some y => team_spares C CE E tcp T key l y
                                      | None => True
                                      end
  end.

(** The counter a connection is about to put to the replay filter. *)
Definition next_check (p : sprog bool) : option N :=
  match p with SDo (SCheck _ c) _ => Some c | _ => None end.

(** Whenever the counter of a message comes to the replay filter, fewer than 64
    counters after it were given out. *)
Definition timely1 {A} (x : team A) (v : tmove) : Prop :=
  match v with
  | TServe i => forall c, next_check (c_prog (t_conn (z_srv x) i)) = Some c -> z_ctr x < c + 64
  | _ => True
  end.
Fixpoint timely (C : Crypto) (CE : nat -> cenv) (E : nat -> senv) (tcp : nat -> bool) (T : nat) {A}
    (sched : list tmove) (x : team A) : Prop :=
  match sched with
  | [] => True
  | v :: l => timely1 x v /\ match team_move C CE E tcp T x v with
                             | Some y => timely C CE E tcp T l y
                             | None => True
                             end
  end.

(** No client of the team and none of their connections can move. *)
Definition team_rests (C : Crypto) (CE : nat -> cenv) (E : nat -> senv) (tcp : nat -> bool) (T : nat) {A} (x : team A) : Prop :=
  forall i, (i < T)%nat -> team_move C CE E tcp T x (TClient i) = None /\ team_move C CE E tcp T x (TServe i) = None.

(** How often they move in a schedule. *)
Definition team_moves (sched : list tmove) : nat :=
  length (filter (fun v => match v with TClient _ | TServe _ => true | _ => false end) sched).

(** What the Reads of a client return if the messages marked [true] are accepted
    and answered with [f] and the others refused as replays. *)
Definition outcome1 (f : bytes -> bytes) (p : bytes) (ok : bool) : rd_result :=
  if ok then RdOk (f p) true
  else RdErr (RdRemote 5 (str "message counter was already seen or is too old"%string)).
Fixpoint outcomes (f : bytes -> bytes) (ps : list bytes) (oks : list bool) : list rd_result :=
  match ps, oks with
  | p :: ps', ok :: oks' => outcome1 f p ok :: outcomes f ps' oks'
  | _, _ => []
  end.
Definition team_result (o : copts) (f : bytes -> bytes) (ps : list bytes) (oks : list bool) : list rd_result :=
  if co_reply o then outcomes f ps oks else [].

(** The messages marked [true]. *)
Fixpoint marked {B} (ps : list B) (oks : list bool) : list B :=
  match ps, oks with
  | p :: ps', ok :: oks' => if ok then p :: marked ps' oks' else marked ps' oks'
  | _, _ => []
  end.

(** The messages the handler was given on a connection, in order. *)
Definition given (c : conn) : list bytes := map snd (seen (c_calls c)).

(** All messages of the team. *)
Fixpoint total (ps : nat -> list bytes) (T : nat) : nat :=
  match T with O => O | S k => (total ps k + length (ps k))%nat end.
