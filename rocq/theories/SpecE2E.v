(** A client and a server connected to each other. *)
From Verif Require Import Bytes Parser Crypto Kdf Wire WireSeq Replay SpecReplay Server ServerSeq SpecServer Keys
  Client ClientSeq SpecClient.

(** The octets either side put on the wire between two states. *)
Definition sent_by_client (c c' : cst) : bytes := wire (skipn (length (c_sent c)) (c_sent c')).
Definition sent_by_server (s s' : sst) : bytes := wire (skipn (length (s_sent s)) (s_sent s')).

(** An undisturbed connection: nothing fails on either side. [csk] and [rnd] are
    the client's choices, [ssk] the server's signing key, [pk] what the client
    fetched for [host]; the server sees the client at [chost]. *)
Record undisturbed (C : Crypto) (CE : cenv) (SE : senv) (chost host : bytes) (csk rnd : bytes) (ssk : privkey) : Prop := {
  u_client : c_works CE;
  u_rand : ce_rand CE = Some rnd /\ length rnd = 16%nat;
  u_gen : ce_gen CE = Some csk;
  u_fetch : exists alg pk, fetch_key C ssk = KOk (alg, pk) /\ ce_fetch CE host = Some pk;
  u_server : writes_all SE;
  u_quit : forall i, e_quit SE i = false;
  u_host : e_host SE = Some chost;
  u_store : forall i, e_store SE i = true;
  u_sgen : forall i, exists k, e_gen SE i = Some k /\ x_dh C k (x_pub C csk) <> None;
  u_sign : forall i m, exists rnd sig, e_sign SE i SHA512 m = KOk sig /\ sign C ssk rnd SHA512 m = KOk sig /\
             sig <> [] /\ lenN sig <= 2 ^ 16 }.

(** A request and its reply: Write, the server's turn, one Read into a buffer of
    [n] octets. *)
Definition round (C : Crypto) (CE : cenv) (SE : senv) (o : copts) (ses : csession) (p : bytes) (n : N)
    (cs : cst) (ss : sst) : option wr_result * option rd_result * cst * sst :=
  let '(w, c1) := crun C CE (client_write C o ses p) cs in
  let '(_, s1) := srun C SE (conn_body C) (set_in ss (sent_by_client cs c1)) in
  let '(r, c2) := crun C CE (client_read C o ses n) (c_set_in c1 (sent_by_server ss s1)) in
  (w, r, c2, s1).

Fixpoint rounds (C : Crypto) (CE : cenv) (SE : senv) (o : copts) (ses : csession) (n : N) (ps : list bytes)
    (cs : cst) (ss : sst) : list (option rd_result) * cst * sst :=
  match ps with
  | [] => ([], cs, ss)
  | p :: ps' => let '(_, r, c1, s1) := round C CE SE o ses p n cs ss in
                let '(rs, c2, s2) := rounds C CE SE o ses n ps' c1 s1 in (r :: rs, c2, s2)
  end.

(** Client and server share a session: same secret and id, the client's buffer
    is empty, and the server has seen the counters [hist] on it. *)
Record paired (C : Crypto) (ses : csession) (chost : bytes) (hist : list N) (cs : cst) (ss : sst) : Prop := {
  pa_wf : wf ss;
  pa_id : length (cs_id ses) = 16%nat;
  pa_known : known C ss chost (cs_id ses) =
             Some {| ses_secret := cs_secret ses; ses_win := snd (checks new_window hist) |};
  pa_hist : Forall (fun c => c < 2 ^ 64) hist;
  pa_buf : c_buf cs = [] }.
