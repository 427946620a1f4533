(** Properties C135-C146: the chat example. *)
From Coq Require Import Strings.String.
From Verif Require Import Bytes Kdf Registry SpecRegistry RegistryProofs RegistryIntro RegistryLeave RegistryTruth RegistryExec
  ChatUser SpecChat ChatUserProofs ChatUrl ChatExamples.

(** C135: it is not so that no two users have one name. Registrations that overlap
    can both succeed. *)
Theorem C135_unique_names_refuted : exists s i j u v,
  rsteps rst0 s /\ i <> j /\ u <> v /\ u_name u = u_name v /\
  In (i, RStored u) (r_log s) /\ In (i, RResp 201) (r_log s) /\
  In (j, RStored v) (r_log s) /\ In (j, RResp 201) (r_log s) /\ kept (r_log s) (u_name u).
Proof. exact two_of_a_name. Qed.
Print Assumptions C135_unique_names_refuted.

(** What is so: a request that begins while the name is on the register does not
    store a user unless the name was removed meanwhile. Missing: requests that
    overlap. *)
Theorem C135_unique_names_partial : forall s, rsteps rst0 s -> forall i u v l2 l1 l0,
  r_log s = l2 ++ (i, RStored v) :: l1 ++ (i, RBegin (QPost u)) :: l0 ->
  on_register l0 (u_name u) = true -> exists j, In (j, RDeleted (u_name u)) l1.
Proof. exact taken_name. Qed.
Print Assumptions C135_unique_names_partial.
Example C135_example : exists s i l1 l0, rsteps rst0 s /\
  r_log s = l1 ++ (i, RBegin (QPost ex_ana2)) :: l0 /\ on_register l0 (u_name ex_ana2) = true /\
  In (i, RResp 409) l1.
Proof. exact refused. Qed.

(** C136: two users that register, in whatever order or at once, and stay, are each
    told of the other by the time both registrations are answered. *)
Theorem C136_introduced : forall s, rsteps rst0 s -> forall i j u v,
  In (i, RStored u) (r_log s) -> In (j, RStored v) (r_log s) -> u_name u <> u_name v ->
  kept (r_log s) (u_name u) -> kept (r_log s) (u_name v) -> only (r_log s) u -> only (r_log s) v ->
  In (i, RResp 201) (r_log s) -> In (j, RResp 201) (r_log s) ->
  (exists k, In (k, RTold v true u) (r_log s)) /\ (exists k, In (k, RTold u true v) (r_log s)).
Proof. exact introduced. Qed.
Print Assumptions C136_introduced.
Example C136_example : rsteps rst0 s_both /\
  In (0%nat, RStored ex_ana) (r_log s_both) /\ In (1%nat, RStored ex_bob) (r_log s_both) /\
  u_name ex_ana <> u_name ex_bob /\
  kept (r_log s_both) (u_name ex_ana) /\ kept (r_log s_both) (u_name ex_bob) /\
  only (r_log s_both) ex_ana /\ only (r_log s_both) ex_bob /\
  In (0%nat, RResp 201) (r_log s_both) /\ In (1%nat, RResp 201) (r_log s_both).
Proof. exact meets. Qed.

(** C137: when a departure is answered, everybody who registered before it and
    stays was told. *)
Theorem C137_farewell : forall s, rsteps rst0 s -> forall i n l1 l0 j v,
  r_log s = l1 ++ (i, RDeleted n) :: l0 -> In (j, RStored v) l0 ->
  kept (r_log s) (u_name v) -> only (r_log s) v -> In (i, RResp 204) (r_log s) ->
  exists u, u_name u = n /\ In (i, RTold v false u) (r_log s).
Proof. exact farewell. Qed.
Print Assumptions C137_farewell.
Example C137_example : rsteps rst0 s_seq /\
  exists l1 l0, r_log s_seq = l1 ++ (3%nat, RDeleted (str "bob")) :: l0 /\
  In (0%nat, RStored ex_ana) l0 /\ kept (r_log s_seq) (u_name ex_ana) /\ only (r_log s_seq) ex_ana /\
  In (3%nat, RResp 204) (r_log s_seq) /\ In (3%nat, RTold ex_ana false ex_bob) (r_log s_seq).
Proof. exact (conj seq_steps parts). Qed.

(** C138: a listing has every name once, only users that registered, and all users
    that were registered when it began and stay. *)
Theorem C138_listing : forall s, rsteps rst0 s -> forall i us, In (i, RList us) (r_log s) ->
  NoDup (map u_name us) /\
  (forall v, In v us -> exists j, In (j, RStored v) (r_log s)) /\
  (forall l1 l0 j v, r_log s = l1 ++ (i, RBegin QGet) :: l0 -> In (j, RStored v) l0 ->
     kept (r_log s) (u_name v) -> only (r_log s) v -> In v us).
Proof. exact listed. Qed.
Print Assumptions C138_listing.
Example C138_example : rsteps rst0 s_seq /\ In (2%nat, RList [ex_bob; ex_ana]) (r_log s_seq) /\
  exists l1 l0, r_log s_seq = l1 ++ (2%nat, RBegin QGet) :: l0 /\ In (0%nat, RStored ex_ana) l0.
Proof. exact (conj seq_steps lists_two). Qed.

(** And nobody who was not registered when it began and does not register
    meanwhile. *)
Theorem C138_not_listed : forall s0 s l n, rsteps rst0 s0 -> on_register (r_log s0) n = false ->
  rsteps s0 s -> r_log s = l ++ r_log s0 -> not_again n l ->
  forall i q us v, In (i, RBegin q) l -> In (i, RList us) l -> In v us -> u_name v <> n.
Proof. exact not_listed. Qed.
Print Assumptions C138_not_listed.
Example C138_not_listed_example : exists s0 s l, rsteps rst0 s0 /\ on_register (r_log s0) (u_name ex_ana) = false /\
  In (0%nat, RStored ex_ana) (r_log s0) /\
  rsteps s0 s /\ r_log s = l ++ r_log s0 /\ not_again (u_name ex_ana) l /\
  In (2%nat, RBegin QGet) l /\ In (2%nat, RList [ex_bob]) l.
Proof. exact lists_gone. Qed.

(** C139: it is not so that the last notification about a user tells whether it is
    there. Here every request was answered, [u] registered and left, [v] is still
    there, and the last that [v] heard is that [u] joined. *)
Theorem C139_last_word_refuted : exists s u v i k l2 l1 l0, rsteps rst0 s /\ quiet s /\
  r_log s = l2 ++ (k, RBegin (QDelete (u_name u))) :: l1 ++ (i, RResp 201) :: l0 /\ In (i, RStored u) l0 /\
  only (r_log s) u /\ not_again (u_name u) (l2 ++ l1) /\
  on_register (r_log s) (u_name u) = false /\ on_register (r_log s) (u_name v) = true /\
  last_told (r_log s) v (u_name u) = Some true.
Proof. exact stale. Qed.
Print Assumptions C139_last_word_refuted.

(** What is so: a request that begins after a user left tells nobody that it
    joined, unless it registers again. Missing: requests that were under way. *)
Theorem C139_last_word_partial : forall s0 s l n, rsteps rst0 s0 -> on_register (r_log s0) n = false ->
  rsteps s0 s -> r_log s = l ++ r_log s0 -> not_again n l ->
  forall i q v u, In (i, RBegin q) l -> In (i, RTold v true u) l -> u_name u <> n.
Proof. exact never_back. Qed.
Print Assumptions C139_last_word_partial.
Example C139_example : exists s0 s l, rsteps rst0 s0 /\ on_register (r_log s0) (u_name ex_ana) = false /\
  In (0%nat, RStored ex_ana) (r_log s0) /\
  rsteps s0 s /\ r_log s = l ++ r_log s0 /\ not_again (u_name ex_ana) l /\
  In (3%nat, RBegin (QPost (mk "eve" "tcp" 4003))) l /\ In (3%nat, RTold ex_bob true (mk "eve" "tcp" 4003)) l.
Proof. exact not_back. Qed.

(** C146: nothing is said or done without grounds: only the user of a registration
    is stored, only the name of a departure is removed, and users are told of, and
    told, only if they registered. *)
Theorem C146_grounds : forall s, rsteps rst0 s -> forall i e, In (i, e) (r_log s) -> grounds (r_log s) i e.
Proof. exact truthful. Qed.
Print Assumptions C146_grounds.
Example C146_example : rsteps rst0 s_seq /\ In (1%nat, RTold ex_ana true ex_bob) (r_log s_seq) /\
  In (3%nat, RTold ex_ana false ex_bob) (r_log s_seq) /\ In (3%nat, RResp 204) (r_log s_seq).
Proof. exact (conj seq_steps seq_told). Qed.

(** C140: it is not so that a user that leaves removes itself: some names remove
    another user, and some can not be removed. *)
Theorem C140_removes_itself_refuted :
  (exists n path m, unregister_path n = Some path /\ delete_name path = Some m /\ m <> n) /\
  (exists n, n <> [] /\ unregister_path n = None).
Proof. exact removes_another. Qed.
Print Assumptions C140_removes_itself_refuted.

(** What is so: names without control bytes, '#', '%', '/' and '?'. *)
Theorem C140_removes_itself_partial : forall n, plain_name n ->
  exists path, unregister_path n = Some path /\ delete_name path = Some n.
Proof. exact leaves_itself. Qed.
Print Assumptions C140_removes_itself_partial.
(** And exactly: which names remove which users. *)
Theorem C140_removes_exactly : forall n m,
  (exists path, unregister_path n = Some path /\ delete_name path = Some m) <-> names_in_url n m.
Proof. exact removes_exactly. Qed.
Print Assumptions C140_removes_exactly.
Example C140_exactly_example : names_in_url (str "an%61/b%6F%4a?x#%41y") (str "ana/boJ").
Proof. exact ana_url. Qed.
Example C140_example : plain_name (str "Rafael J. Justo") /\
  unregister_path (str "Rafael J. Justo") = Some (str "/users/Rafael J. Justo").
Proof. repeat split; discriminate. Qed.

(** C141: it is not so that no request makes the registry's handler panic: the
    handler serves the path "/users" too, which is shorter than what it cuts off. *)
Theorem C141_no_panic_refuted : exists path, path = str "/users" /\ delete_name path = None.
Proof. exact slice_panics. Qed.
Print Assumptions C141_no_panic_refuted.

Theorem C141_no_panic_partial : forall n, delete_name (str "/users/" ++ n) = Some n.
Proof. exact slice_works. Qed.
Print Assumptions C141_no_panic_partial.

(** C142: it is not so that notifications can not stop a user's program. One about a
    user of an unknown network ends it, or locks it for ever. *)
Theorem C142_alive_refuted :
  (exists t s, ureach t s /\ u_dead s = true) /\
  (exists t s, ureach t s /\ u_held s = true /\
     forall t' s', usteps s t' s' -> forall l n c, ~ In (USend l) t' /\ ~ In (UStore n c) t').
Proof. exact unknown_network. Qed.
Print Assumptions C142_alive_refuted.

Theorem C142_alive_partial : forall t s, ureach t s -> known_networks t -> u_dead s = false /\ u_held s = false.
Proof. exact stays_alive. Qed.
Print Assumptions C142_alive_partial.
(** And it goes on: announcements are handled, departures as well, and a message can
    be sent when somebody is there. *)
Theorem C142_goes_on_partial : forall t s, ureach t s -> known_networks t ->
  (forall n net, net = net_tcp \/ net = net_udp -> exists c s1 s2,
     ustep s (UDial n net c) s1 /\ ustep s1 (UStore n (Some c)) s2) /\
  (forall n, latest t n = None -> exists s', ustep s (UGone n) s') /\
  (forall n c, latest t n = Some (Some c) -> exists s', ustep s (UClosed n c) s') /\
  (forall n, latest t n <> None -> exists l c s', ustep s (USend l) s' /\ In (n, c) l).
Proof. exact goes_on. Qed.
Print Assumptions C142_goes_on_partial.
Example C142_example : known_networks ex_talk /\
  exists s, ureach ex_talk s /\ u_tab s = [(n_eve, Some 1%nat); (n_bob, Some 0%nat)] /\ u_open s = [1%nat; 0%nat].
Proof. exact (conj talk_known talk_run). Qed.

(** C143: it is not so that every open connection is that of a user that is there.
    A user that is announced twice, which the registry does when registrations
    overlap, leaves a connection open that nothing refers to. *)
Theorem C143_no_leak_refuted :
  (exists s i j u v, rsteps rst0 s /\ i <> j /\ only (r_log s) u /\ only (r_log s) v /\
     In (i, RTold u true v) (r_log s) /\ In (j, RTold u true v) (r_log s)) /\
  (exists t s c, ureach t s /\ known_networks t /\ u_pend s = [] /\ u_tab s = [] /\ In c (u_open s)).
Proof. exact leaks. Qed.
Print Assumptions C143_no_leak_refuted.

Theorem C143_no_leak_partial : forall t s, ureach t s -> join_once t -> forall c, In c (u_open s) ->
  exists n, In (n, Some c) (u_tab s ++ u_pend s).
Proof. exact no_leak. Qed.
Print Assumptions C143_no_leak_partial.
Example C143_example : join_once ex_talk /\
  exists s, ureach ex_talk s /\ u_tab s = [(n_eve, Some 1%nat); (n_bob, Some 0%nat)] /\ u_open s = [1%nat; 0%nat].
Proof. exact (conj talk_once talk_run). Qed.

(** C144: a message goes to everybody that joined and did not leave, once, over the
    connection that was made for them last, which is open. *)
Theorem C144_to_everyone : forall t s l, ureach (USend l :: t) s ->
  NoDup (map fst l) /\
  (forall n c, In (n, c) l <-> latest t n = Some (Some c)) /\
  (forall n, latest t n <> Some None) /\
  forall n c, In (n, c) l -> (exists net, In (UDial n net c) t) /\ forall m, ~ In (UClosed m c) t.
Proof. exact to_everyone. Qed.
Print Assumptions C144_to_everyone.
Example C144_example : exists s, ureach (USend [(n_eve, 1%nat); (n_bob, 0%nat)] :: tl ex_talk) s /\
  u_tab s = [(n_eve, Some 1%nat); (n_bob, Some 0%nat)] /\ u_open s = [1%nat; 0%nat].
Proof. exact talk_run. Qed.

(** C145: it is not so that the name beside a message says who sent it. Whatever the
    address, a message can be shown under any name, also the user's own. *)
Theorem C145_sender_refuted : forall self n remote, n <> [] -> exists from, received self remote from = n.
Proof. exact any_name. Qed.
Print Assumptions C145_sender_refuted.
