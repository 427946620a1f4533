(** Handlers as programs that read and write. *)
From Verif Require Import Bytes Parser Crypto Toy Kdf Wire WireSeq Replay SpecReplay Server ServerSeq SpecServer ServerProps ServerProps2 ServerExamples Keys Client ClientSeq SpecClient
  SpecE2E ClientExamples LongExamples MultiConn SpecMulti Udp SpecUdp UdpThms SpecUdpLoss Handler SpecHandler HandlerExamples HandlerProofs HandlerUdp.

(** C184. A handler reads the message in any pieces it likes and writes the reply
    in any pieces it likes. What it reads is the message from its beginning, a
    Read returns nothing only if it asked for nothing or everything was read, and
    io.EOF means that everything was read. No Write fails. What it returns with is
    all it wrote, in order, or nothing if no reply is wanted; it fails or panics if
    and only if the last thing it did was to return an error or to panic. *)
Theorem C184_handler_io : forall h reply m x t, runs h reply m x t ->
  (exists unread, got t ++ unread = m) /\
  (forall t1 n b eof t2, t = t1 ++ EGot n b eof :: t2 ->
     lenN b <= n /\ (eof = true <-> got t1 = m /\ 0 < n) /\ (b = [] -> n = 0 \/ eof = true)) /\
  (forall b n err, In (EPut b n err) t -> n = lenN b /\ err = false) /\
  (forall out, x = HOk out -> out = if reply then written t else []) /\
  exists t0, t = t0 ++ [match x with HOk _ => EEnd true | HErr => EEnd false | HPanic => EThrow end].
Proof. exact handler_io. Qed.
Print Assumptions C184_handler_io.
Example C184_example :
  let m := [x61; x62; x63; x64] in
  runs hasty true m (HOk [x61; x62; x3a]) [EGot 2 [x61; x62] false; EPut [x61; x62] 2 false; EPut [x3a] 1 false; EEnd true] /\
  runs (echo 3) true m (HOk m) [EGot 3 [x61; x62; x63] false; EPut [x61; x62; x63] 3 false; EGot 3 [x64] false; EPut [x64] 1 false; EGot 3 [] true; EEnd true] /\
  runs undecided true m HErr [EPut [x41] 1 false; EEnd false].
Proof. repeat split; exists 9%nat; vm_compute; reflexivity. Qed.

(** An accepted request is answered with what the handler wrote, sealed under the
    counter of the request; with nothing if no reply is wanted; and if the handler
    fails, with an error and nothing of what it had written. *)
Theorem C184_reply_is_written : forall C E s host id msg rest ctr reply h,
  (forall i m, exists t, runs (h i) reply m (e_handler E i reply m) t) ->
  request_ok (RqProcess id ctr msg reply) -> s_in s = enc_request (RqProcess id ctr msg reply) ++ rest ->
  e_quit E (s_step s) = false -> e_host E = Some host -> writes_all E ->
  forall ses hist, known C s host id = Some ses -> Forall (fun c => c < 2 ^ 64) hist -> snd (checks new_window hist) = ses_win ses ->
  wf s -> ~ refused_after hist ctr -> forall key, new_gcm C (ses_secret ses) = Some key ->
  forall pt, gcm_open C key (x00 :: repeat x00 3 ++ be_enc 8 ctr) msg = Some pt ->
  let '(res, s') := srun C E (conn_body C) s in
  (exists p, s_calls s' = s_calls s ++ [(p, ctr, reply, pt)]) /\
  exists i x t, runs (h i) reply pt x t /\ (exists unread, got t ++ unread = pt) /\
  match last t EThrow with
  | EEnd true => (if reply then responded s s' (RsProcess ctr (gcm_seal C key (x01 :: repeat x00 3 ++ be_enc 8 ctr) (written t))) else silent s s') /\ res = Some true
  | EEnd false => (exists e, responded s s' (RsError 2 e)) /\ res = Some true
  | _ => silent s s' /\ res = None
  end.
Proof. exact reply_written. Qed.
Print Assumptions C184_reply_is_written.
Example C184_server_example :
  (forall i m, exists t, runs shout true m (e_handler ex_SE i true m) t) /\ writes_all ex_SE /\
  wf ex_ss /\ (exists ses key, known toy ex_ss ex_host (cs_id ex_ses) = Some ses /\ new_gcm toy (ses_secret ses) = Some key /\ snd (checks new_window []) = ses_win ses) /\
  let m := [x41; x42; x43; x44] in
  let q := enc_request (RqProcess (cs_id ex_ses) 1 (gcm_seal toy ex_ckey (x00 :: repeat x00 3 ++ be_enc 8 1) m) true) in
  map snd (s_calls (snd (srun toy ex_SE (conn_body toy) (set_in ex_ss q)))) = [m].
Proof.
  split; [exact (fun i m => collect_runs 3 (fun m => m ++ [x21]) eq_refl m)|]. split; [exact (u_server _ _ _ _ _ _ _ _ ex_undisturbed)|].
  split; [exact (pa_wf _ _ _ _ _ _ (proj1 long_reply_example))|]. split; [|vm_compute; reflexivity].
  eexists _, _. split; [vm_compute; reflexivity|]. split; vm_compute; reflexivity.
Qed.

(** A handler cannot tell whether a reply is wanted: it does the same in either
    case. *)
Theorem C184_flag_hidden : forall h m x t, runs h true m x t -> forall x' t', runs h false m x' t' ->
  t' = t /\ x' = match x with HOk _ => HOk [] | HErr => HErr | HPanic => HPanic end.
Proof. exact flag_hidden. Qed.
Print Assumptions C184_flag_hidden.
Example C184_flag_example : runs hasty true [x61] (HOk [x61; x3a]) [EGot 2 [x61] false; EPut [x61] 1 false; EPut [x3a] 1 false; EEnd true] /\
  runs hasty false [x61] (HOk []) [EGot 2 [x61] false; EPut [x61] 1 false; EPut [x3a] 1 false; EEnd true].
Proof. split; exists 9%nat; vm_compute; reflexivity. Qed.

(** Any handler that computes [f] piece by piece gives a conversation in which
    every Read has [f] of its message; and io.Copy(w, r), with whatever buffer, is
    an echo server. *)
Theorem C184_conversation : forall C CE SE o chost h (f : bytes -> bytes), CryptoLaws C ->
  c_works CE -> writes_all SE -> (forall i, e_quit SE i = false) -> e_host SE = Some chost -> co_reply o = true ->
  (forall i m, exists t, runs h true m (e_handler SE i true m) t) -> (forall m, exists t, runs h true m (HOk (f m)) t) ->
  forall ses n ps hist cs ss,
  paired C ses chost hist cs ss -> Forall (fun c => c <= c_ctr cs) hist -> c_ctr cs + lenN ps < 2 ^ 64 ->
  Forall (fun p => lenN p + 16 <= 2 ^ 30 /\ f p <> [] /\ lenN (f p) + 16 <= 2 ^ 30 /\ lenN (f p) <= n) ps ->
  let '(rs, cs', ss') := rounds C CE SE o ses n ps cs ss in
  rs = map (fun p => Some (RdOk (f p) true)) ps /\ map snd (s_calls ss') = map snd (s_calls ss) ++ ps.
Proof. exact handler_talk. Qed.
Print Assumptions C184_conversation.
Theorem C184_echo : forall C CE SE o chost k, CryptoLaws C ->
  c_works CE -> writes_all SE -> (forall i, e_quit SE i = false) -> e_host SE = Some chost -> co_reply o = true -> 0 < k ->
  (forall i m, exists t, runs (echo k) true m (e_handler SE i true m) t) ->
  forall ses n ps hist cs ss,
  paired C ses chost hist cs ss -> Forall (fun c => c <= c_ctr cs) hist -> c_ctr cs + lenN ps < 2 ^ 64 ->
  Forall (fun p => p <> [] /\ lenN p + 16 <= 2 ^ 30 /\ lenN p <= n) ps ->
  let '(rs, cs', ss') := rounds C CE SE o ses n ps cs ss in
  rs = map (fun p => Some (RdOk p true)) ps /\ map snd (s_calls ss') = map snd (s_calls ss) ++ ps.
Proof. exact echo_talk. Qed.
Print Assumptions C184_echo.
Example C184_echo_example :
  (forall i m, exists t, runs shout true m (e_handler ex_SE i true m) t) /\ (forall m, exists t, runs shout true m (HOk (m ++ [x21])) t) /\
  (forall k, 0 < k -> forall i m, exists t, runs (echo k) true m (e_handler echo_SE i true m) t) /\
  paired toy ex_ses ex_host [] (cst0 []) ex_ss /\
  fst (fst (rounds toy ex_CE echo_SE ex_opts ex_ses 100 [[x41]; [x42; x43; x44; x45]] (cst0 []) ex_ss)) =
    [Some (RdOk [x41] true); Some (RdOk [x42; x43; x44; x45] true)].
Proof.
  split; [exact (fun i m => collect_runs 3 (fun m => m ++ [x21]) eq_refl m)|]. split; [exact (collect_runs 3 (fun m => m ++ [x21]) eq_refl)|].
  split; [exact (fun k H i m => echo_runs k H m)|]. split; [exact (proj1 long_reply_example)|]. vm_compute. reflexivity.
Qed.

(** The same over UDP, where datagrams may be lost: an exchange of which nothing is
    lost brings [f] of the message, any other an error. *)
Theorem C184_udp_conversation : forall C CE SE hostof chunk send me srv o ses n chost h (f : bytes -> bytes) rs hist cs u net sn ss, CryptoLaws C ->
  (forall i, ce_deadline CE i = true) -> (forall i b, lenN b <= 65507 -> send i b = true) ->
  hostof me = Some chost -> co_reply o = true ->
  (forall i m, exists t, runs h true m (e_handler SE i true m) t) -> (forall m, exists t, runs h true m (HOk (f m)) t) ->
  paired C ses chost hist cs ss -> Forall (fun c => c <= c_ctr cs) hist ->
  udp_client u -> n_closed net = false -> n_in net = [] -> n_closed sn = false -> n_in sn = [] ->
  c_ctr cs + lenN rs < 2 ^ 64 ->
  Forall (fun q => let p := fst (fst q) in lenN p + 50 <= 65507 /\ f p <> [] /\ lenN (f p) + 33 <= 65507 /\ lenN (f p) <= n) rs ->
  let '(res, (_, (_, ss'))) := lossy C CE SE hostof chunk send me srv o ses n rs (u, net) cs sn ss in
  Forall2 (round_good f) rs res /\ seen (s_calls ss') = seen (s_calls ss) ++ heard (c_ctr cs + 1) rs.
Proof. exact handler_udp_talk. Qed.
Print Assumptions C184_udp_conversation.
Example C184_udp_example :
  (forall i m, exists t, runs (echo 2) true m (e_handler echo_SE i true m) t) /\ paired toy ex_ses ex_host [] (cst0 []) ex_ss /\
  let '(res, (_, (_, s'))) := lossy toy ex_CE echo_SE ex_hostof (fun _ => 3) (fun _ b => lenN b <=? 65507) [x01] [x02] ex_opts ex_ses 100
    [([x41; x42; x43], Arrives, 0%nat); ([x44], ReplyLost, 0%nat); ([x45], Arrives, 0%nat)] (new_udp false, ex_net []) (cst0 []) (ex_net []) ex_ss in
  res = [[Some (RdOk [x41; x42; x43] true)]; [Some (RdErr (RdParse EIO))]; [Some (RdOk [x45] true)]] /\
  seen (s_calls s') = [(1, true, [x41; x42; x43]); (2, true, [x44]); (3, true, [x45])].
Proof. split; [exact (fun i m => echo_runs 2 eq_refl m)|]. split; [exact (proj1 long_reply_example)|]. vm_compute. auto. Qed.
