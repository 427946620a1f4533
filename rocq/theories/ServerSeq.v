(** Sequential interpretation of the server programs: one connection at a time,
    any behaviour of the environment. *)
From Verif Require Import Bytes Parser Crypto Wire Replay Server.

(** What the environment answers, indexed by the number of questions asked so
    far. *)
Record senv := {
  e_host : option bytes;
  e_end : send;                                (* how the input stream ends *)
  e_write : nat -> bytes -> N * option werr;
  e_gen : nat -> option bytes;
  e_store : nat -> bool;
  e_handler : nat -> bool -> bytes -> hres;
  e_sign : nat -> hash -> bytes -> kres bytes;
  e_fetch : nat -> kres (N * pubkey);
  e_quit : nat -> bool }.

Record session := { ses_secret : bytes; ses_win : window }.

(** State: unread input, number of questions asked, writes (intended octets, how many reached
    the wire), session table, heap of sessions, calls of the handler. *)
Record sst := {
  s_in : bytes; s_step : nat; s_sent : list (bytes * N);
  s_map : bytes -> option nat; s_heap : nat -> session; s_next : nat;
  s_calls : list (nat * N * bool * bytes) }.

Definition tick (s : sst) : sst :=
  {| s_in := s_in s; s_step := S (s_step s); s_sent := s_sent s; s_map := s_map s;
     s_heap := s_heap s; s_next := s_next s; s_calls := s_calls s |}.
Definition set_in (s : sst) (i : bytes) : sst :=
  {| s_in := i; s_step := s_step s; s_sent := s_sent s; s_map := s_map s;
     s_heap := s_heap s; s_next := s_next s; s_calls := s_calls s |}.
Definition add_sent (s : sst) (b : bytes) (n : N) : sst :=
  {| s_in := s_in s; s_step := s_step s; s_sent := s_sent s ++ [(b, n)]; s_map := s_map s;
     s_heap := s_heap s; s_next := s_next s; s_calls := s_calls s |}.
Definition set_map (s : sst) (k : bytes) (p : nat) : sst :=
  {| s_in := s_in s; s_step := s_step s; s_sent := s_sent s;
     s_map := fun k' => if bytes_eqb k' k then Some p else s_map s k';
     s_heap := s_heap s; s_next := s_next s; s_calls := s_calls s |}.
Definition set_session (s : sst) (p : nat) (v : session) : sst :=
  {| s_in := s_in s; s_step := s_step s; s_sent := s_sent s; s_map := s_map s;
     s_heap := fun p' => if Nat.eqb p' p then v else s_heap s p'; s_next := s_next s;
     s_calls := s_calls s |}.
Definition set_next (s : sst) (n : nat) : sst :=
  {| s_in := s_in s; s_step := s_step s; s_sent := s_sent s; s_map := s_map s;
     s_heap := s_heap s; s_next := n; s_calls := s_calls s |}.
Definition add_call (s : sst) (c : nat * N * bool * bytes) : sst :=
  {| s_in := s_in s; s_step := s_step s; s_sent := s_sent s; s_map := s_map s;
     s_heap := s_heap s; s_next := s_next s; s_calls := s_calls s ++ [c] |}.

(** One effect. *)
Definition sexec (C : Crypto) (E : senv) {R} (e : seff R) (s : sst) : R * sst :=
  match e in seff R return R * sst with
  | SRead n => let '(r, i) := fl_read n (s_in s) (e_end E) in (r, set_in s i)
  | SCopy n => let '(r, i) := fl_copy n (s_in s) (e_end E) in (r, set_in s i)
  | SAlloc n => (tt, s)
  | SWrite b => let '(n, err) := e_write E (s_step s) b in
                let n := N.min n (lenN b) in ((n, err), add_sent (tick s) b n)
  | SHost => (e_host E, s)
  | SGenKey => (e_gen E (s_step s), tick s)
  | SNewSession sec => (s_next s,
      set_next (set_session s (s_next s) {| ses_secret := sec; ses_win := new_window |})
               (S (s_next s)))
  | SStore k p => if e_store E (s_step s) then (true, set_map (tick s) k p) else (false, tick s)
  | SLoad k => (s_map s k, s)
  | SSecret p => (ses_secret (s_heap s p), s)
  | SCheck p c => let '(r, w) := check_and_update (ses_win (s_heap s p)) c in
      (r, set_session s p {| ses_secret := ses_secret (s_heap s p); ses_win := w |})
  | SHandler p c reply msg => (e_handler E (s_step s) reply msg, add_call (tick s) (p, c, reply, msg))
  | SSeal p c key nonce pt => (gcm_seal C key nonce pt, s)
  | SSign h m => (e_sign E (s_step s) h m, tick s)
  | SFetchKey => (e_fetch E (s_step s), tick s)
  | SQuit => (e_quit E (s_step s), tick s)
  end.

(** A program; [None] is a panic. *)
Fixpoint srun (C : Crypto) (E : senv) {A} (p : sprog A) (s : sst) : option A * sst :=
  match p with
  | SRet a => (Some a, s)
  | SPanic => (None, s)
  | SDo e k => let '(r, s') := sexec C E e s in srun C E (k r) s'
  end.

(** server.go:187-233: the loop, until it breaks or panics. *)
Inductive fate := Closed | Panicked | OutOfFuel.
Fixpoint serve (C : Crypto) (E : senv) (fuel : nat) (s : sst) : fate * sst :=
  match fuel with
  | O => (OutOfFuel, s)
  | S f => match srun C E (conn_body C) s with
           | (Some true, s') => serve C E f s'
           | (Some false, s') => (Closed, s')
           | (None, s') => (Panicked, s')
           end
  end.
(** A whole connection: every iteration but the last consumes at least an octet. *)
Definition serve_conn (C : Crypto) (E : senv) (s : sst) : fate * sst :=
  serve C E (S (S (length (s_in s)))) s.
