(** Two clients that share a session take turns; and one of them is overtaken. *)
From Coq Require Import Strings.String.
From Verif Require Import Bytes BytesProofs Parser Crypto Kdf Wire WireSeq Toy Replay SpecReplay Server ServerSeq SpecServer ServerProps
  ServerExamples MultiConn SpecMulti MultiExamples Keys Client ClientSeq SpecClient SpecE2E ClientExamples System SpecSystem
  SystemExamples Team SpecTeam.

(** Three messages were sent in the session, the second never arrived. *)
Definition team_hist : list N := [1; 3].
Definition team_mem : mem :=
  {| m_map := fun k => if bytes_eqb k sys_key then Some 0%nat else None;
     m_heap := fun _ => {| ses_secret := cs_secret ex_ses; ses_win := snd (checks new_window team_hist) |}; m_next := 1 |}.
Definition team_ps (i : nat) : list bytes := match i with 0%nat => [[x41]; [x42; x43]] | 1%nat => [[x44]; [x45]] | _ => [] end.
Definition team_start (o : copts) (ps : nat -> list bytes) : team (list rd_result) :=
  teaming toy (fun _ => true) (fun _ => []) team_mem 2 3 (fun i => exchange toy o ex_ses 100 (ps i)).
Notation trun := (team_run toy (fun _ => ex_CE) (sys_E 2) (fun _ => true) 2).
Notation tmv := (team_move toy (fun _ => ex_CE) (sys_E 2) (fun _ => true) 2).

(** Whoever can move does, the two clients and connections in turn; the octets of
    a client of another host arrive and are served in between. *)
Fixpoint turns (fuel : nat) (x : team (list rd_result)) : list tmove :=
  match fuel with
  | O => []
  | S fuel =>
      let l := filter (fun v => able (tmv x v)) [TClient 0; TServe 1; TClient 1; TServe 0] in
      let l := match skipn (Nat.modulo fuel (length l)) l with v :: _ => [v] | [] => [] end in
      let l := (if Nat.eqb fuel 150 then [TArrive 2 (ex_input 1)] else []) ++ l ++ [TOther 2] ++
               (if Nat.eqb fuel 90 then [TCollect ex_name] else []) in
      match trun l x with Some y => l ++ turns fuel y | None => [] end
  end.
Definition team_sched : list tmove := Eval vm_compute in turns 151 (team_start ex_opts team_ps).

Definition team_out (x : option (team (list rd_result))) :=
  match x with
  | Some x => Some (map (fun i => (match z_cl x i with CRet a => Some a | _ => None end, given (t_conn (z_srv x) i))) [0; 1]%nat,
                    seen (c_calls (t_conn (z_srv x) 2)), z_ctr x)
  | None => None
  end.

Fixpoint team_sparesb (key : bytes) (sched : list tmove) (x : team (list rd_result)) : bool :=
  match sched with
  | [] => true
  | v :: l =>
      match v with
      | TOther j => match next_key (c_prog (t_conn (z_srv x) j)) with Some k => negb (bytes_eqb k key) | None => true end
      | TCollect k => negb (bytes_eqb k key)
      | _ => true
      end &&
      match tmv x v with Some y => team_sparesb key l y | None => true end
  end.
Lemma team_sparesb_spares key l : forall x, team_sparesb key l x = true ->
  team_spares toy (fun _ => ex_CE) (sys_E 2) (fun _ => true) 2 key l x.
Proof.
  induction l as [|v l IH]; intros x H; [exact I|]. cbn [team_sparesb] in H. apply andb_prop in H. destruct H as [H1 H2]. cbn [team_spares]. split.
  - destruct v as [| |j|j b|k]; cbn; try exact I.
    + intros Hk. rewrite Hk, bytes_eqb_refl in H1. discriminate.
    + intros ->. rewrite bytes_eqb_refl in H1. discriminate.
  - destruct (tmv x v); [apply IH, H2|exact I].
Qed.
Fixpoint timelyb (sched : list tmove) (x : team (list rd_result)) : bool :=
  match sched with
  | [] => true
  | v :: l =>
      match v with
      | TServe i => match next_check (c_prog (t_conn (z_srv x) i)) with Some c => z_ctr x <? c + 64 | None => true end
      | _ => true
      end &&
      match tmv x v with Some y => timelyb l y | None => true end
  end.
Lemma timelyb_timely l : forall x, timelyb l x = true -> timely toy (fun _ => ex_CE) (sys_E 2) (fun _ => true) 2 l x.
Proof.
  induction l as [|v l IH]; intros x H; [exact I|]. cbn [timelyb] in H. apply andb_prop in H. destruct H as [H1 H2]. cbn [timely]. split.
  - destruct v as [|i| | |]; cbn; try exact I. intros c Hc. rewrite Hc in H1. apply N.ltb_lt, H1.
  - destruct (tmv x v); [apply IH, H2|exact I].
Qed.

Lemma team_run_out :
  team_sparesb sys_key team_sched (team_start ex_opts team_ps) = true /\ timelyb team_sched (team_start ex_opts team_ps) = true /\
  team_out (trun team_sched (team_start ex_opts team_ps)) =
    Some ([(Some [RdOk [x41; x21] true; RdOk [x42; x43; x21] true], [[x41]; [x42; x43]]);
           (Some [RdOk [x44; x21] true; RdOk [x45; x21] true], [[x44]; [x45]])], [(1, true, [x42])], 7).
Proof. vm_compute. auto. Qed.

Lemma team_hyps :
  (forall i, (i < 2)%nat -> c_works ex_CE) /\ (forall i, (i < 2)%nat -> writes_all (sys_E 2 i)) /\
  (forall i, (i < 2)%nat -> forall k, e_quit (sys_E 2 i) k = false) /\ (forall i, (i < 2)%nat -> e_host (sys_E 2 i) = Some ex_host) /\
  length (cs_id ex_ses) = 16%nat /\ sane team_mem /\
  m_map team_mem (session_key toy ex_host (cs_id ex_ses)) = Some 0%nat /\
  m_heap team_mem 0%nat = {| ses_secret := cs_secret ex_ses; ses_win := snd (checks new_window team_hist) |} /\
  Forall (fun c => c <= 3) team_hist /\ 3 + N.of_nat (total team_ps 2) < 2 ^ 64 /\
  (forall i, (i < 2)%nat -> Forall (fun p => lenN p + 16 <= 2 ^ 30) (team_ps i)) /\
  (forall i k p, (i < 2)%nat -> In p (team_ps i) -> e_handler (sys_E 2 i) k true p = HOk (sys_f p)) /\
  (forall i, (i < 2)%nat -> Forall (fun p => sys_f p <> [] /\ lenN (sys_f p) + 16 <= 2 ^ 30 /\ lenN (sys_f p) <= 100) (team_ps i)).
Proof.
  destruct ex_undisturbed as [U1 U2 U3 U4 U5 U6 U7 U8 U9 U10].
  split; [intros; assumption|]. split; [intros; assumption|]. split; [reflexivity|]. split.
  { intros [|[|i]] Hi; try reflexivity. lia. }
  split; [reflexivity|]. split.
  { unfold sane. cbn [team_mem m_map m_next]. split; intros k; [intros p|intros k' p]; destruct (bytes_eqb_spec k sys_key); try discriminate.
    - intros E. injection E as <-. lia.
    - destruct (bytes_eqb_spec k' sys_key); [congruence|discriminate]. }
  split; [vm_compute; reflexivity|]. split; [reflexivity|]. split; [repeat constructor; discriminate|].
  split; [vm_compute; reflexivity|]. split.
  { intros [|[|i]] Hi; [| |lia]; repeat constructor; vm_compute; discriminate. }
  split; [reflexivity|].
  intros [|[|i]] Hi; [| |lia]; repeat constructor; vm_compute; discriminate.
Qed.

(** Client 0 writes its message, clients 1 to 63 take a counter each, client 64
    writes, and its connection is served before that of client 0. *)
Definition late_ps (i : nat) : list bytes := [[x41]].
Definition late_start : team (list rd_result) :=
  teaming toy (fun _ => true) (fun _ => []) team_mem 65 3 (fun i => exchange toy ex_opts ex_ses 100 (late_ps i)).
Definition late_E : nat -> senv := fun _ => sys_E 2 0.
Notation late_run := (team_run toy (fun _ => ex_CE) late_E (fun _ => true) 65).
Definition late_sched : list tmove :=
  repeat (TClient 0) 7 ++ flat_map (fun i => repeat (TClient i) 2) (seq 1 63) ++ repeat (TClient 64) 7 ++
  repeat (TServe 64) 17 ++ repeat (TServe 0) 12 ++ repeat (TClient 0) 4.
Definition late_out (x : option (team (list rd_result))) :=
  match x with
  | Some x => Some (match z_cl x 0%nat with CRet a => Some a | _ => None end, given (t_conn (z_srv x) 0), given (t_conn (z_srv x) 64), z_ctr x)
  | None => None
  end.
Lemma late_run_out :
  late_out (late_run late_sched late_start) =
    Some (Some [RdErr (RdRemote 5 (str "message counter was already seen or is too old"%string))], [], [[x41]], 68).
Proof. vm_compute. reflexivity. Qed.
