(** * Prop_Ask.v : property theorems (generated by tools/genprops.py from AskProofs.v).
    Every proof is the lemma of the same name in AskProofs.v. *)
From Coq Require Import ZArith.
From stdpp Require Import gmap strings list relations.
From RecordUpdate Require Import RecordUpdate.
From Verif Require Import Go Errors Message World Lang Code Sem Spec_Conn Spec_View Spec_Wire CodecProofs Examples Scenes AskProofs.
From Verif Require Import AskProofs.

(** C24. An Ask is sent and waits with a waiter registered for its token.
    Whatever has happened to the world when the reply comes: Ask returns the
    reply, and afterwards no waiter for its token is registered and the other
    waiters are as they were. *)
Theorem C24_replied_partial : forall G c A t x m w,
  setting G c A -> quiet G w c -> c_inside (conn_of w c) = false -> ctx_live w x -> m_err m = None ->
  may_send (role_of G c w) (cs_rooms (view w c)) m = true ->
  let token := genWait (g_client G c) (w_now w) in
  exists ch w1 k,
    exec t (Ask G c x m) w = XBlocked w1 (OSelect ch x) k /\
    c_waiting (conn_of w1 c) !! token = Some ch /\
    forall w2 reply, select_reply w2 ch x = [inr reply] ->
      exists w3, exec t (Do (OSelect ch x) k) w2 = XDone w3 (reply, m_err reply) /\
        c_waiting (conn_of w3 c) !! token = None /\
        (forall tok, tok <> token -> c_waiting (conn_of w3 c) !! tok = c_waiting (conn_of w2 c) !! tok) /\
        (forall c', c' <> c -> conn_of w3 c' = conn_of w2 c').
Proof. exact l_C24_replied_partial. Qed.
Print Assumptions C24_replied_partial.

(** C24 does not hold when the context ends first: Ask returns an error and
    the waiter stays registered. *)
Theorem C24_context_refuted : forall G c A t x m w,
  setting G c A -> quiet G w c -> c_inside (conn_of w c) = false -> ctx_live w x -> m_err m = None ->
  may_send (role_of G c w) (cs_rooms (view w c)) m = true ->
  let token := genWait (g_client G c) (w_now w) in
  exists ch w1 k,
    exec t (Ask G c x m) w = XBlocked w1 (OSelect ch x) k /\
    c_waiting (conn_of w1 c) !! token = Some ch /\
    forall w2 e, select_reply w2 ch x = [inl e] -> c_waiting (conn_of w2 c) !! token = Some ch ->
      exists w3 err, exec t (Do (OSelect ch x) k) w2 = XDone w3 (no_message, Some err) /\
        c_waiting (conn_of w3 c) !! token = Some ch.
Proof. exact l_C24_context_refuted. Qed.
Print Assumptions C24_context_refuted.

(** C25. What does hold: if the context of a waiting Ask ends, Ask returns
    at once, with the write error if the connection has been closed meanwhile
    and with the error of the context otherwise. *)
Theorem C25_context_partial : forall G c A t x m w,
  setting G c A -> quiet G w c -> c_inside (conn_of w c) = false -> ctx_live w x -> m_err m = None ->
  may_send (role_of G c w) (cs_rooms (view w c)) m = true ->
  exists ch w1 k,
    exec t (Ask G c x m) w = XBlocked w1 (OSelect ch x) k /\
    forall w2 e, select_reply w2 ch x = [inl e] ->
      exists w3, exec t (Do (OSelect ch x) k) w2 = XDone w3 (no_message, Some (if c_closed (conn_of w2 c) then EWrite else e)).
Proof. exact l_C25_context_partial. Qed.
Print Assumptions C25_context_partial.

(** C24 does not hold when the message may not be sent: Ask returns the
    write error at once and leaves a waiter behind. *)
Theorem C24_refused_refuted : forall G c A t x m w,
  setting G c A -> quiet G w c -> c_inside (conn_of w c) = false -> ctx_live w x -> m_err m = None ->
  may_send (role_of G c w) (cs_rooms (view w c)) m = false ->
  let token := genWait (g_client G c) (w_now w) in
  exists w1 ch, exec t (Ask G c x m) w = XDone w1 (no_message, Some EWrite) /\
    c_waiting (conn_of w1 c) !! token = Some ch.
Proof. exact l_C24_refused_refuted. Qed.
Print Assumptions C24_refused_refuted.

(** The client side of the example asks about namespace chat, of which the
    first world is a member and the second is not. *)
Example C24_example : setting exG 1 exA /\ quiet exG (s_w exM) 1 /\ c_inside (conn_of (s_w exM) 1) = false /\
  ctx_live (s_w exM) None /\ m_err hello_msg = None /\
  may_send (role_of exG 1 (s_w exM)) (cs_rooms (view (s_w exM) 1)) hello_msg = true /\
  quiet exG (s_w exS) 1 /\ c_inside (conn_of (s_w exS) 1) = false /\
  may_send (role_of exG 1 (s_w exS)) (cs_rooms (view (s_w exS) 1)) hello_msg = false.
Proof.
  split; [apply ex_setting|]. split; [apply quietb_ok; vm_compute; reflexivity|]. split; [vm_compute; reflexivity|].
  split; [exact I|]. split; [reflexivity|]. split; [vm_compute; reflexivity|]. split; [apply quietb_ok; vm_compute; reflexivity|].
  split; vm_compute; reflexivity.
Qed.

(** C24.  The same for Server.Ask without a StackExchange: it hands its message to the loop of the server, with a waiter
    registered for its token, and waits.  Whatever has happened when the reply comes, it returns the reply and leaves no waiter for its token. *)
Theorem C24_server_partial : forall G x m w t,
  g_exch G = None -> g_sync G = true -> s_bcaccepted (w_srv w) <= s_bcsent (w_srv w) ->
  let token := genWait false (w_now w) in
  exists ch w1 n k1 k,
    exec t (ServerAsk G x m) w = XBlocked w1 (OBcAccepted n) k1 /\
    s_waiting (w_srv w1) !! token = Some ch /\ s_bcast (w_srv w1) = s_bcast (w_srv w) ++ [[set_wait token m]] /\
    (forall w2, n <= s_bcaccepted (w_srv w2) -> exec t (Do (OBcAccepted n) k1) w2 = exec t (Do (OSelect ch x) k) w2) /\
    (forall w3 reply, select_reply w3 ch x = [inr reply] ->
      exists w4, exec t (Do (OSelect ch x) k) w3 = XDone w4 (reply, m_err reply) /\
        s_waiting (w_srv w4) !! token = None /\
        (forall tok, tok <> token -> s_waiting (w_srv w4) !! tok = s_waiting (w_srv w3) !! tok)).
Proof. exact l_C24_server_partial. Qed.
Print Assumptions C24_server_partial.

(** C24 does not hold for Server.Ask either when the context ends first: it returns the error of the context and its waiter
    stays registered. *)
Theorem C24_server_context_refuted : forall G x m w t,
  g_exch G = None -> g_sync G = true -> s_bcaccepted (w_srv w) <= s_bcsent (w_srv w) ->
  let token := genWait false (w_now w) in
  exists ch w1 n k1 k,
    exec t (ServerAsk G x m) w = XBlocked w1 (OBcAccepted n) k1 /\ s_waiting (w_srv w1) !! token = Some ch /\
    (forall w2, n <= s_bcaccepted (w_srv w2) -> exec t (Do (OBcAccepted n) k1) w2 = exec t (Do (OSelect ch x) k) w2) /\
    (forall w3 e, select_reply w3 ch x = [inl e] -> exists w4, exec t (Do (OSelect ch x) k) w3 = XDone w4 (no_message, Some e) /\
      s_waiting (w_srv w4) = s_waiting (w_srv w3)).
Proof. exact l_C24_server_context_refuted. Qed.
Print Assumptions C24_server_context_refuted.

(** C25.  An Ask whose context has a deadline that is over for more than a second (conn.go:954-958) fails at once with the deadline error; on a closed connection it fails
    at once with the write error.  In both cases nothing changes. *)
Theorem C25_at_once_partial : forall G c t k xc d m w,
  onlyNative G c = false ->
  (c_closed (conn_of w c) = false -> w_ctxs w !! k = Some xc -> x_deadline xc = Some d -> (d < w_now w - 1000000000)%Z ->
   exec t (Ask G c (Some k) m) w = XDone w (no_message, Some EDeadline)) /\
  (c_closed (conn_of w c) = true -> forall x, exec t (Ask G c x m) w = XDone w (m, Some (EClose (-1) (Some EWrite)))).
Proof. exact l_C25_at_once_partial. Qed.
Print Assumptions C25_at_once_partial.

(** C24.  The same with the asynchronous broadcaster. *)
Theorem C24_server_async_partial : forall G x m w t,
  g_exch G = None -> g_sync G = false -> b_mu (w_srv w) = None -> b_gen (w_srv w) ∉ b_closed (w_srv w) -> ctx_live w x ->
  let token := genWait false (w_now w) in
  exists ch w1 k,
    exec t (ServerAsk G x m) w = XBlocked w1 (OSelect ch x) k /\
    s_waiting (w_srv w1) !! token = Some ch /\
    (forall w3 reply, select_reply w3 ch x = [inr reply] ->
      exists w4, exec t (Do (OSelect ch x) k) w3 = XDone w4 (reply, m_err reply) /\
        s_waiting (w_srv w4) !! token = None /\
        (forall tok, tok <> token -> s_waiting (w_srv w4) !! tok = s_waiting (w_srv w3) !! tok)).
Proof. exact l_C24_server_async_partial. Qed.
Print Assumptions C24_server_async_partial.

(** In reachable worlds of a server with the synchronous broadcaster the loop has accepted every broadcast, and with the asynchronous one
    its lock is free. *)
Example C24_server_example : reachable (scene true (fun _ => Ret tt)) askS /\
  g_exch (scene true (fun _ => Ret tt)) = None /\ g_sync (scene true (fun _ => Ret tt)) = true /\ s_bcaccepted (w_srv (s_w askS)) <= s_bcsent (w_srv (s_w askS)) /\
  reachable exG exM /\ g_exch exG = None /\ g_sync exG = false /\ b_mu (w_srv (s_w exM)) = None /\ b_gen (w_srv (s_w exM)) ∉ b_closed (w_srv (s_w exM)) /\ ctx_live (s_w exM) None /\
  onlyNative exG 1 = false.
Proof. exact x_C24_server_example. Qed.

(** C26 does not hold.  An Ask inside a callback waits with no waiter
    registered for its token and a new goroutine reads the next frame of the
    connection.  Whatever that frame is, it is taken away from the reader, no
    callback runs for it, and the Ask returns it as its reply. *)
Theorem C26_refuted : forall G c A t t' x m w,
  setting G c A -> quiet G w c -> c_inside (conn_of w c) = true -> ctx_live w x -> m_err m = None ->
  may_send (role_of G c w) (cs_rooms (view w c)) m = true ->
  let token := genWait (g_client G c) (w_now w) in
  exists ch w1 k,
    exec t (Ask G c x m) w = XBlocked w1 (OSelect ch x) k /\
    w_spawn w1 = w_spawn w ++ [TReadNext c ch] /\
    c_waiting (conn_of w1 c) = c_waiting (conn_of w c) /\
    forall typ b rest w2, chan_of w2 ch = chan_of w1 ch -> ctx_live w2 x ->
      c_sockclosed (conn_of w2 c) = false -> c_in (conn_of w2 c) = (typ, b) :: rest ->
      let reply := deserialize G c typ b in
      exists w3 w4, exec t' (code G (TReadNext c ch)) w2 = XDone w3 None /\
        exec t (Do (OSelect ch x) k) w3 = XDone w4 (reply, m_err reply) /\
        c_in (conn_of w4 c) = rest /\ w_log w4 = LAskReply c token reply true :: w_log w2.
Proof. exact l_C26_refuted. Qed.
Print Assumptions C26_refuted.

(** C26, for as much of it as holds: if the frame that comes next is the
    other side's reply [r] to the request, then the Ask returns it: its token,
    names and body, and the error it carries. *)
Theorem C26_next_partial : forall G c A t t' x m w r b,
  setting G c A -> quiet G w c -> c_inside (conn_of w c) = true -> ctx_live w x -> m_err m = None ->
  may_send (role_of G c w) (cs_rooms (view w c)) m = true ->
  let token := genWait (g_client G c) (w_now w) in
  m_wait r = token -> ~ sent_raw r -> m_fromExplicit r = "" ->
  safe_name (m_namespace r) -> safe_name (m_room r) -> safe_name (m_event r) ->
  (forall e, m_err r = Some e -> err_text e <> Ok "" \/ exists b, e = EReply b) -> serializeMessage r = Ok b ->
  exists ch w1 k,
    exec t (Ask G c x m) w = XBlocked w1 (OSelect ch x) k /\
    w_spawn w1 = w_spawn w ++ [TReadNext c ch] /\
    forall typ rest w2, chan_of w2 ch = chan_of w1 ch -> ctx_live w2 x ->
      c_sockclosed (conn_of w2 c) = false -> c_in (conn_of w2 c) = (typ, b) :: rest ->
      exists w3 w4 reply err, exec t' (code G (TReadNext c ch)) w2 = XDone w3 None /\
        exec t (Do (OSelect ch x) k) w3 = XDone w4 (reply, err) /\
        m_wait reply = token /\ m_namespace reply = m_namespace r /\ m_room reply = m_room r /\ m_event reply = m_event r /\
        delivered (g_known G) (m_body r) (m_err r) (m_body reply) err /\ c_in (conn_of w4 c) = rest.
Proof. exact l_C26_next_partial. Qed.
Print Assumptions C26_next_partial.

(** C26, for as much of it as holds: an Ask inside a callback does not wait
    for ever on a connection that ends.  If the next read fails, then the
    Ask returns the error. *)
Theorem C26_ends_partial : forall G c A t t' x m w,
  setting G c A -> quiet G w c -> c_inside (conn_of w c) = true -> ctx_live w x -> m_err m = None ->
  may_send (role_of G c w) (cs_rooms (view w c)) m = true ->
  exists ch w1 k,
    exec t (Ask G c x m) w = XBlocked w1 (OSelect ch x) k /\
    w_spawn w1 = w_spawn w ++ [TReadNext c ch] /\
    forall e w2, chan_of w2 ch = chan_of w1 ch -> ctx_live w2 x ->
      (if c_sockclosed (conn_of w2 c) then e = use_of_closed else c_in (conn_of w2 c) = [] /\ c_inend (conn_of w2 c) = Some e) ->
      exists w3 w4 reply, exec t' (code G (TReadNext c ch)) w2 = XDone w3 None /\
        exec t (Do (OSelect ch x) k) w3 = XDone w4 (reply, Some e) /\ m_isError reply = true /\ m_body reply = "".
Proof. exact l_C26_ends_partial. Qed.
Print Assumptions C26_ends_partial.

(** A client asks inside the callback of event "go"; event "news" arrives before
    the answer: the Ask returns the news, for which no callback runs, and then
    the answer is handled as an event nobody listens to. *)
Example C26_example : reachable nosy (play nosy nosy_run (init nosy)) /\
  let log := w_log (s_w (play nosy nosy_run (init nosy))) in
  answers log = [("$7", "extra", true); ("$0", "", false)] /\
  map (fun e : string * string * message => snd (fst e)) (fired_of 2 log) = ["go"] /\
  c_in (conn_of (s_w (play nosy nosy_run (init nosy))) 2) = [].
Proof. split; [apply play_reachable|]. split; [vm_compute; reflexivity|]. split; vm_compute; reflexivity. Qed.
(** If the answer comes first, the Ask returns it, and then the news is handled. *)
Example C26_next_example :
  let s := play nosy (take 17 nosy_run ++ [Act1 (Env (EDeliver 2 TextMessage "$7;chat;;echo;0;0;answer")); Act1 (Env (EDeliver 2 TextMessage ";chat;;news;0;0;extra")); Go 4; Go 2]) (init nosy) in
  reachable nosy s /\ answers (w_log (s_w s)) = [("$7", "answer", true); ("$0", "", false)] /\
  map (fun e : string * string * message => snd (fst e)) (fired_of 2 (w_log (s_w s))) = ["news"; "go"].
Proof. split; [apply play_reachable|]. split; vm_compute; reflexivity. Qed.
(** If the connection ends first, the Ask returns with the error of the read. *)
Example C26_ends_example :
  let s := play nosy (take 17 nosy_run ++ [Act1 (Env (EReadEnd 2 use_of_closed)); Go 4; Go 2]) (init nosy) in
  reachable nosy s /\ answers (w_log (s_w s)) = [("$7", "", true); ("$0", "", false)] /\ s_th s !! (2 : tid) = None.
Proof. split; [apply play_reachable|]. split; vm_compute; reflexivity. Qed.
(** The hypotheses of C26_refuted hold for a member whose reader runs a callback; those of C26_next_partial for an answer to it. *)
Example C26_hypotheses : let w := upd_conn 1 (fun k => k <| c_inside := true |>) (s_w exM) in
  setting exG 1 exA /\ quiet exG w 1 /\ c_inside (conn_of w 1) = true /\
  ctx_live w None /\ m_err hello_msg = None /\ may_send (role_of exG 1 w) (cs_rooms (view w 1)) hello_msg = true /\
  let r := set_wait (genWait (g_client exG 1) (w_now w)) (set_body "answer" hello_msg) in
  ~ sent_raw r /\ m_fromExplicit r = "" /\ safe_name (m_namespace r) /\ safe_name (m_room r) /\ safe_name (m_event r) /\
  m_err r = None /\ exists b, serializeMessage r = Ok b.
Proof.
  split; [apply ex_setting|]. split; [apply quietb_ok; vm_compute; reflexivity|]. split; [vm_compute; reflexivity|].
  split; [exact I|]. split; [reflexivity|]. split; [vm_compute; reflexivity|].
  split; [intros [H _]; revert H; vm_compute; discriminate|]. split; [reflexivity|].
  split; [apply unescape_escape_iff; reflexivity|]. split; [apply unescape_escape_iff; reflexivity|]. split; [apply unescape_escape_iff; reflexivity|].
  split; [reflexivity|]. eexists. vm_compute. reflexivity.
Qed.
