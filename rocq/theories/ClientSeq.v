(** Sequential interpretation of the client programs: any byte stream from the
    network, any behaviour of the environment. *)
From Verif Require Import Bytes Parser Crypto Wire Keys Client.

Record cenv := {
  ce_end : send;                               (* how the input stream ends *)
  ce_write : nat -> bytes -> N * bool;
  ce_deadline : nat -> bool;
  ce_fetch : bytes -> option pubkey;
  ce_rand : option bytes;
  ce_gen : option bytes }.

(** State: unread input, number of questions asked, writes with the octets that
    reached the wire, the session counter, the last counter, the buffer, what was
    encrypted (counter, key, nonce, plaintext). *)
Record cst := {
  c_in : bytes; c_step : nat; c_sent : list (bytes * N);
  c_ctr : N; c_last : N; c_buf : bytes; c_seals : list (N * bytes * bytes * bytes) }.

Definition c_set_in (s : cst) (i : bytes) : cst :=
  {| c_in := i; c_step := c_step s; c_sent := c_sent s; c_ctr := c_ctr s; c_last := c_last s;
     c_buf := c_buf s; c_seals := c_seals s |}.
Definition c_tick (s : cst) : cst :=
  {| c_in := c_in s; c_step := S (c_step s); c_sent := c_sent s; c_ctr := c_ctr s; c_last := c_last s;
     c_buf := c_buf s; c_seals := c_seals s |}.
Definition c_add_sent (s : cst) (b : bytes) (n : N) : cst :=
  {| c_in := c_in s; c_step := c_step s; c_sent := c_sent s ++ [(b, n)]; c_ctr := c_ctr s;
     c_last := c_last s; c_buf := c_buf s; c_seals := c_seals s |}.
Definition c_set_ctr (s : cst) (c : N) : cst :=
  {| c_in := c_in s; c_step := c_step s; c_sent := c_sent s; c_ctr := c; c_last := c_last s;
     c_buf := c_buf s; c_seals := c_seals s |}.
Definition c_set_last (s : cst) (c : N) : cst :=
  {| c_in := c_in s; c_step := c_step s; c_sent := c_sent s; c_ctr := c_ctr s; c_last := c;
     c_buf := c_buf s; c_seals := c_seals s |}.
Definition c_set_buf (s : cst) (b : bytes) : cst :=
  {| c_in := c_in s; c_step := c_step s; c_sent := c_sent s; c_ctr := c_ctr s; c_last := c_last s;
     c_buf := b; c_seals := c_seals s |}.
Definition c_add_seal (s : cst) (x : N * bytes * bytes * bytes) : cst :=
  {| c_in := c_in s; c_step := c_step s; c_sent := c_sent s; c_ctr := c_ctr s; c_last := c_last s;
     c_buf := c_buf s; c_seals := c_seals s ++ [x] |}.

Definition cexec (C : Crypto) (E : cenv) {R} (e : ceff R) (s : cst) : R * cst :=
  match e in ceff R return R * cst with
  | CRead n => let '(r, i) := fl_read n (c_in s) (ce_end E) in (r, c_set_in s i)
  | CCopy n => let '(r, i) := fl_copy n (c_in s) (ce_end E) in (r, c_set_in s i)
  | CAlloc _ => (tt, s)
  | CWrite b => let '(n, err) := ce_write E (c_step s) b in
                let n := N.min n (lenN b) in ((n, err), c_add_sent (c_tick s) b n)
  | CDeadline => (ce_deadline E (c_step s), c_tick s)
  | CFetch h => (ce_fetch E h, s)
  | CRand => (ce_rand E, s)
  | CGen => (ce_gen E, s)
  | CAdd => let c := (c_ctr s + 1) mod two64 in (c, c_set_ctr s c)
  | CSetLast c => (tt, c_set_last s c)
  | CGetLast => (c_last s, s)
  | CGetBuf => (c_buf s, s)
  | CSetBuf b => (tt, c_set_buf s b)
  | CSeal c key nonce pt => (gcm_seal C key nonce pt, c_add_seal s (c, key, nonce, pt))
  end.

(** A program; [None] is a panic. *)
Fixpoint crun (C : Crypto) (E : cenv) {A} (p : cprog A) (s : cst) : option A * cst :=
  match p with
  | CRet a => (Some a, s)
  | CPanic => (None, s)
  | CDo e k => let '(r, s') := cexec C E e s in crun C E (k r) s'
  end.

(** Successive Reads with buffers of the given sizes. *)
Fixpoint reads (C : Crypto) (E : cenv) (o : copts) (ses : csession) (ns : list N) (s : cst)
  : list (option rd_result) * cst :=
  match ns with
  | [] => ([], s)
  | n :: ns' => let '(r, s') := crun C E (client_read C o ses n) s in
                let '(rs, s'') := reads C E o ses ns' s' in (r :: rs, s'')
  end.

(** Successive Writes. *)
Fixpoint writes (C : Crypto) (E : cenv) (o : copts) (ses : csession) (ps : list bytes) (s : cst)
  : list (option wr_result) * cst :=
  match ps with
  | [] => ([], s)
  | p :: ps' => let '(r, s') := crun C E (client_write C o ses p) s in
                let '(rs, s'') := writes C E o ses ps' s' in (r :: rs, s'')
  end.
