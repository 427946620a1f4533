(** Properties C113-C115: what closing does to a connection and to the session of
    a pool, and what becomes of a pool whose session the server lost. *)
From Verif Require Import Bytes Parser Crypto Kdf Wire WireSeq Toy Replay Server ServerSeq SpecServer ServerProps
  Keys Client ClientSeq SpecClient SpecE2E ClientConc Pool SpecPool PoolExec PoolThms PoolSession LostProofs ServerExamples ClientExamples.

(** C113. Once the server is being closed, a connection reads nothing more, calls
    no handler, sends nothing, and ends. *)
Theorem C113_closing_connection : forall C E fuel s, e_quit E (s_step s) = true ->
  let '(f, s') := serve C E (S fuel) s in
  f = Closed /\ s_in s' = s_in s /\ s_sent s' = s_sent s /\ s_calls s' = s_calls s /\ same_sessions C s s'.
Proof. exact serve_quit_facts. Qed.
Print Assumptions C113_closing_connection.
(** A request in progress is finished, answer included; it is the last one. *)
Theorem C113_last_request : forall C E fuel s s1, srun C E (conn_body C) s = (Some true, s1) -> e_quit E (s_step s1) = true ->
  serve C E (S (S fuel)) s = (Closed, tick s1).
Proof. exact serve_last. Qed.
Print Assumptions C113_last_request.
Definition ex_quit : senv := {|
  e_host := Some ex_host; e_end := EndEOF; e_write := fun _ b => (lenN b, None); e_gen := fun _ => Some ex_ssk;
  e_store := fun _ => true; e_handler := fun _ _ m => HOk m; e_sign := fun _ _ _ => KOk [x99];
  e_fetch := fun _ => KOk (3, PkEd25519 (repeat x02 32)); e_quit := fun i => Nat.leb 2 i |}.
Example C113_example :
  let s := sst0 [x11; x11] in
  let '(r, s1) := srun toy ex_quit (conn_body toy) s in
  r = Some true /\ e_quit ex_quit (s_step s1) = true /\ s_in s1 = [x11] /\ s_sent s1 = [([x80], 1)] /\
  s_sent (snd (serve_conn toy ex_quit s)) = [([x80], 1)].
Proof. vm_compute. repeat split. Qed.

(** C114. Two clients of a pool have the same session exactly if the pool was not
    closed between the two dials; so nobody can use the session of a closed pool
    by getting a new client from it. *)
Theorem C114_fresh_session : forall mi mo s post i c mid j d pre, preachable mi mo s ->
  p_trace s = post ++ (i, EDial c) :: mid ++ (j, EDial d) :: pre ->
  (cl_session s c = cl_session s d <-> forall k, ~ In (k, EPoolClosed) mid).
Proof. exact session_fresh. Qed.
Print Assumptions C114_fresh_session.
Example C114_example : preachable 1 2 ex_reopened /\ exists mid pre,
  p_trace ex_reopened = [(0%nat, EGot 2)] ++ (0%nat, EDial 2) :: mid ++ (1%nat, EDial 1) :: pre /\
  In (1%nat, EPoolClosed) mid /\ cl_session ex_reopened 2 = 1%nat /\ cl_session ex_reopened 1 = 0%nat /\ cl_session ex_reopened 0 = 0%nat.
Proof.
  split; [apply pafter_reach; vm_compute; reflexivity|].
  eexists [_; _; _; _], _. split; [vm_compute; reflexivity|]. split; [left; reflexivity|]. vm_compute. repeat split.
Qed.

(** C115 is refuted: when the server has lost the session of a pool, by a restart
    or because it was idle too long, every exchange on every client that the pool
    hands out fails with error 3. A Hello is still answered (C109), so Get keeps
    such clients, and clients it dials get the lost session as well. *)
Theorem C115_lost_session_replaced_refuted : forall C, CryptoLaws C -> forall CE SE o chost n mi mo st (sess : nat -> csession) ss,
  c_works CE -> writes_all SE -> (forall i, e_quit SE i = false) -> e_host SE = Some chost ->
  preachable mi mo st -> (forall k, ~ In (k, EPoolClosed) (p_trace st)) -> (forall x, length (cs_id (sess x)) = 16%nat) ->
  forall i c, In (i, EGot c) (p_trace st) -> known C ss chost (cs_id (sess (cl_session st c))) = None ->
  forall j d ps cs, In (j, EGot d) (p_trace st) -> c_buf cs = [] -> c_ctr cs + lenN ps < 2 ^ 64 ->
  Forall (fun p => lenN p + 16 <= 2 ^ 30) ps ->
  let '(rs, _, ss') := rounds C CE SE o (sess (cl_session st d)) n ps cs ss in
  (exists t, rs = map (fun _ => Some (RdErr (RdRemote 3 t))) ps) /\ s_calls ss' = s_calls ss.
Proof. exact pool_lost. Qed.
Print Assumptions C115_lost_session_replaced_refuted.
Example C115_example : preachable 1 2 ex_two /\ In (0%nat, EGot 0) (p_trace ex_two) /\ In (1%nat, EGot 1) (p_trace ex_two) /\
  length (cs_id ex_ses) = 16%nat /\ known toy ex_ss ex_host (cs_id ex_ses) <> None /\ known toy (sst0 []) ex_host (cs_id ex_ses) = None /\
  fst (fst (rounds toy ex_CE ex_SE ex_opts ex_ses 9 [[x41]; [x42]] (cst0 []) ex_ss)) = [Some (RdOk [x41; x21] true); Some (RdOk [x42; x21] true)] /\
  exists t, fst (fst (rounds toy ex_CE ex_SE ex_opts ex_ses 9 [[x41]; [x42]] (cst0 []) (sst0 []))) = [Some (RdErr (RdRemote 3 t)); Some (RdErr (RdRemote 3 t))].
Proof.
  destruct ex_two_facts as (R & _ & _ & _ & _ & _ & _ & _ & I & J).
  split; [exact R|]. split; [exact I|]. split; [exact J|]. split; [vm_compute; reflexivity|]. split; [vm_compute; discriminate|].
  split; [vm_compute; reflexivity|]. split; [vm_compute; reflexivity|]. eexists. vm_compute. reflexivity.
Qed.
