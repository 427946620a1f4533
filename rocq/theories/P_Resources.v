(** Properties C117-C121: what dialling and constructors leave behind. *)
From Verif Require Import Bytes Resources SpecResources ResourcesProofs.

(** C117 is refuted: a failing SetKeepAlive makes DialTCP forget the socket, and
    every DialUDP whose handshake fails leaves its socket open, one each time. *)
Theorem C117_failed_dial_leaves_nothing_refuted :
  (exists E s, numbered s /\ fst (drun E dial_tcp s) = None /\ d_open (snd (drun E dial_tcp s)) <> d_open s) /\
  (forall E n, (forall i, de_resolve E i = true) -> (forall i, de_connect E i = true) -> (forall i, de_talk E i = false) ->
   forall s, fst (drun E dial_udp s) = None /\ length (d_open (dials E dial_udp n s)) = (n + length (d_open s))%nat).
Proof. exact dial_fails_leak. Qed.
Print Assumptions C117_failed_dial_leaves_nothing_refuted.
(** If SetKeepAlive succeeds, a DialTCP or a dial of a pool leaves no socket when
    it fails, and a new one, the client's, when it succeeds. Missing: UDP. *)
Theorem C117_failed_dial_leaves_nothing_partial : forall E b s, numbered s -> (forall i, de_keepalive E i = true) ->
  let '(r, s') := drun E (pool_dial b) s in
  match r with
  | None => d_open s' = d_open s
  | Some (w, k) => w = TCP /\ d_open s' = k :: d_open s /\ ~ In k (d_open s)
  end.
Proof. exact pool_dial_clean. Qed.
Print Assumptions C117_failed_dial_leaves_nothing_partial.
Definition ex_denv (talk : bool) : denv := {|
  de_resolve := fun _ => true; de_connect := fun _ => true; de_keepalive := fun _ => true; de_talk := fun _ => talk; de_close := fun _ => false |}.
Definition ex_dst : dst := {| d_step := 0; d_next := 3; d_open := [2; 0]%nat |}.
Example C117_example : numbered ex_dst /\
  d_open (snd (drun (ex_denv false) (pool_dial false) ex_dst)) = [2; 0]%nat /\ fst (drun (ex_denv false) (pool_dial false) ex_dst) = None /\
  d_open (dials (ex_denv false) dial_udp 3 ex_dst) = [5; 4; 3; 2; 0]%nat.
Proof. split; [intros k [<-|[<-|[]]]; cbn; lia|]. repeat split. Qed.

(** C118. Fetching a key over the protocol leaves no socket open, whatever fails. *)
Theorem C118_fetch_leaves_nothing : forall E b s, numbered s -> d_open (snd (drun E (fetch_over b) s)) = d_open s.
Proof. exact fetch_clean. Qed.
Print Assumptions C118_fetch_leaves_nothing.
Example C118_example : fst (drun (ex_denv true) (fetch_over true) ex_dst) = true /\
  d_open (snd (drun (ex_denv true) (fetch_over true) ex_dst)) = [2; 0]%nat /\ d_next (snd (drun (ex_denv true) (fetch_over true) ex_dst)) = 4%nat.
Proof. vm_compute. auto. Qed.

(** C119 is refuted: a server made with a secret manager of the user also makes a
    default one, whose collector goroutine nobody can stop. *)
Theorem C119_close_stops_everything_refuted : forall m s, gnum s -> match m with MMemory (Some g) => In g (g_running s) | _ => True end ->
  exists s', new_server (Some m) s = GOk m s' /\ exists g, ~ In g (g_running s) /\ In g (g_running (close_server m s')).
Proof. exact server_leaks. Qed.
Print Assumptions C119_close_stops_everything_refuted.
(** With the default manager, Close stops the collector that NewServer started. *)
Theorem C119_close_stops_everything_partial : forall s, gnum s ->
  exists m s', new_server None s = GOk m s' /\ g_running (close_server m s') = g_running s.
Proof. exact server_clean. Qed.
Print Assumptions C119_close_stops_everything_partial.
Example C119_example : let s := {| g_next := 1; g_running := [0]%nat |} in gnum s /\
  match new_server (Some (MMemory (Some 0%nat))) s with GOk m s' => g_running (close_server m s') | GCrash => [] end = [1%nat].
Proof. split; [intros k [<-|[]]; cbn; lia|reflexivity]. Qed.

(** C120 is refuted: a collection interval that is not positive ends the process
    (a panic in a goroutine of the library), unless the TTL is not positive. *)
Theorem C120_any_interval_refuted : exists gc ttl, forall s, new_memory_manager gc ttl s = GCrash.
Proof. exact bad_interval. Qed.
Print Assumptions C120_any_interval_refuted.
Theorem C120_any_interval_partial : forall gc ttl s, new_memory_manager gc ttl s <> GCrash <-> (ttl <= 0 \/ 0 < gc)%Z.
Proof. exact manager_made. Qed.
Print Assumptions C120_any_interval_partial.
Example C120_example : new_memory_manager 60 900 {| g_next := 0; g_running := [] |} = GOk (MMemory (Some 0%nat)) {| g_next := 1; g_running := [0%nat] |}.
Proof. reflexivity. Qed.

(** C121 is refuted: of two servers with one secret manager, closing the first
    stops the collector of the second. *)
Theorem C121_shared_manager_refuted : forall g s, gnum s -> In g (g_running s) ->
  exists s1 s2, new_server (Some (MMemory (Some g))) s = GOk (MMemory (Some g)) s1 /\ new_server (Some (MMemory (Some g))) s1 = GOk (MMemory (Some g)) s2 /\
  ~ In g (g_running (close_server (MMemory (Some g)) s2)).
Proof. exact shared_stops. Qed.
Print Assumptions C121_shared_manager_refuted.
Example C121_example : let s := {| g_next := 3; g_running := [2; 1]%nat |} in gnum s /\ In 2%nat (g_running s).
Proof. split; [intros k [<-|[<-|[]]]; cbn; lia|left; reflexivity]. Qed.
