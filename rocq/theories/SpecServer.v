(** Vocabulary for stating what a server does: the sessions it knows, what it
    puts on the wire, which calls the application sees. *)
From Verif Require Import Bytes Crypto Wire WireSeq Replay SpecReplay Server ServerSeq.

(** The session the server would use for requests of [host] with [id]. *)
Definition known (C : Crypto) (s : sst) (host id : bytes) : option session :=
  match s_map s (session_key C host id) with
  | Some p => Some (s_heap s p)
  | None => None
  end.

(** Two host/id pairs are told apart unless they collide under SHA-256. *)
Definition collision (C : Crypto) (h1 i1 h2 i2 : bytes) : Prop :=
  h1 ++ i1 <> h2 ++ i2 /\ sha256 C (h1 ++ i1) = sha256 C (h2 ++ i2).

(** States that arise: table entries point to distinct allocated sessions, and
    every replay window results from some history of counters. *)
Record wf (s : sst) : Prop := {
  wf_alloc : forall k p, s_map s k = Some p -> (p < s_next s)%nat;
  wf_inj : forall k k' p, s_map s k = Some p -> s_map s k' = Some p -> k = k';
  wf_win : forall p, exists hist, Forall (fun c => c < two64) hist /\
                     snd (checks new_window hist) = ses_win (s_heap s p) }.

(** The sessions after are those before. *)
Definition same_sessions (C : Crypto) (s s' : sst) : Prop :=
  forall host id, known C s' host id = known C s host id.

(** [responded s s' r]: exactly the response [r] was handed to the transport;
    [n] octets of it were taken. *)
Definition responded (s s' : sst) (r : response) : Prop :=
  exists n, s_sent s' = s_sent s ++ [(enc_response r, n)].
(** [answered s s' r]: as above or, if the transport took no octet of [r] and
    failed, [r] was followed by an error response. *)
Definition answered (s s' : sst) (r : response) : Prop :=
  responded s s' r \/
  exists m n, s_sent s' = s_sent s ++ [(enc_response r, 0); (enc_response (RsError 2 m), n)].

Definition silent (s s' : sst) : Prop := s_sent s' = s_sent s.
Definition no_calls (s s' : sst) : Prop := s_calls s' = s_calls s.

(** The transport takes everything it is given. *)
Definition writes_all (E : senv) : Prop :=
  forall i b, lenN b <= fst (e_write E i b) /\ snd (e_write E i b) = None.

(** A counter a replay filter that was shown [hist] refuses. *)
Definition refused_after (hist : list N) (c : N) : Prop :=
  let seen := accepted hist (fst (checks new_window hist)) in
  c = 0 \/ In c seen \/ c + 64 <= highest seen.

(** Octets that reached the wire. *)
Definition wire (l : list (bytes * N)) : bytes := concat (map (fun x => takeN (snd x) (fst x)) l).

(** Neither the handler nor the key manager panics. *)
Definition no_panics (E : senv) : Prop :=
  (forall i r m, e_handler E i r m <> HPanic) /\ (forall i h m, e_sign E i h m <> KPanic) /\
  (forall i, e_fetch E i <> KPanic).
