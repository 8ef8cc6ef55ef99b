(** * Prop_Reply.v : property theorems (generated by tools/genprops.py from ReplyProofs.v).
    Every proof is the lemma of the same name in ReplyProofs.v. *)
From Coq Require Import ZArith.
From stdpp Require Import gmap strings list relations.
From Verif Require Import Go Errors Message World Lang Code Sem Spec_App Spec_Conn Spec_View Examples Scenes ReplyProofs.
From Verif Require Import ReplyProofs.

(** C23. In every interleaving, whatever the remote side and the
    application do: the message that a Conn.Ask returns carries the token of its
    own request ([LAskReply c token m inside] is logged when an Ask on
    connection [c] that sent [token] returns [m]; [inside] says that it was made
    inside a callback, see C26). *)
Theorem C23_conn : forall (G : cfg) (s : sys) c token m,
  user_app (fun _ => True) G -> reachable G s -> LAskReply c token m false ∈ w_log (s_w s) -> m_wait m = token.
Proof. exact l_C23_conn. Qed.
Print Assumptions C23_conn.

(** C23. The same for Server.Ask. *)
Theorem C23_server : forall (G : cfg) (s : sys) token m,
  user_app (fun _ => True) G -> reachable G s -> LServerReply token m ∈ w_log (s_w s) -> m_wait m = token.
Proof. exact l_C23_server. Qed.
Print Assumptions C23_server.

(** Two asks of one client wait at the same time and are answered in the other
    order; then the server asks. *)
Example C23_example : user_app (fun _ => True) askers /\ reachable askers (play askers asked (init askers)) /\
  answers (w_log (s_w (play askers asked (init askers)))) = [("8", "c", false); ("$8", "b", false); ("$7", "a", false); ("$0", "", false)].
Proof. split; [exact askers_app|]. split; [apply play_reachable|vm_compute; reflexivity]. Qed.

(** C28. In every reachable state: a message that carries a token of the
    remote side (a request) is handled as an event, whatever this side is waiting for. *)
Theorem C28_not_taken : forall (G : cfg) (s : sys) c m now t,
  user_app (fun _ => True) G -> reachable G s ->
  m_wait m = genWait (negb (g_client G c)) now -> m_isInvalid m = false -> m_isNative m = false ->
  exec t (handleMessage G c m) (s_w s) = exec t (handle_event G c m) (s_w s).
Proof. exact l_C28_not_taken. Qed.
Print Assumptions C28_not_taken.

(** C28. ... and in every interleaving no Ask ever returns such a message. *)
Theorem C28_never_returned : forall (G : cfg) (s : sys) c token m now,
  user_app (fun _ => True) G -> reachable G s ->
  LAskReply c token m false ∈ w_log (s_w s) -> m_wait m <> genWait (negb (g_client G c)) now.
Proof. exact l_C28_never_returned. Qed.
Print Assumptions C28_never_returned.

(** C28. ... nor does any Server.Ask. *)
Theorem C28_server_never_returned : forall (G : cfg) (s : sys) token m now,
  user_app (fun _ => True) G -> reachable G s ->
  LServerReply token m ∈ w_log (s_w s) -> m_wait m <> genWait true now.
Proof. exact l_C28_server_never_returned. Qed.
Print Assumptions C28_server_never_returned.

Example C28_example :
  let s := play askers crossing (init askers) in let m := set_wait "7" hello_msg in
  user_app (fun _ => True) askers /\ reachable askers s /\ m_wait m = genWait (negb (g_client askers 2)) 7 /\
  is_Some (c_waiting (conn_of (s_w s) 2) !! "$7").
Proof. split; [exact askers_app|]. split; [apply play_reachable|]. split; [reflexivity|]. eexists. vm_compute. reflexivity. Qed.

(** C27. A reply to a Conn.Ask never blocks the reader, even if the asker
    has given up, as long as no earlier reply to it is still unread: in every
    reachable state handling it ends at once. *)
Theorem C27_late_reply : forall (G : cfg) (s : sys) c m ch t,
  user_app (fun _ => True) G -> reachable G s ->
  m_isInvalid m = false -> m_isNative m = false -> IsWait (g_client G c) m = true -> m_fromStackExchange m = false ->
  s_waiting (w_srv (s_w s)) !! m_wait m = None ->
  c_waiting (conn_of (s_w s) c) !! m_wait m = Some ch -> ch_buf (chan_of (s_w s) ch) = [] ->
  exists w', exec t (handleMessage G c m) (s_w s) = XDone w' None /\ ch_buf (chan_of w' ch) = [m] /\
    w_conns w' = w_conns (s_w s) /\ w_log w' = w_log (s_w s).
Proof. exact l_C27_late_reply. Qed.
Print Assumptions C27_late_reply.

(** The asker gives up, then the reply comes. *)
Example C27_example :
  let s := play (scene true (fun k => match k with 0 => call (AConnect 2 None "chat") | _ => call (AAsk 2 (Some 1) hello_msg) end))
    ([Act1 (Env (ECtxNew 1 None))] ++ crossing ++ [Act1 (Env (ECtxDone 1 EDeadline)); Go 4]) (init askers) in
  let m := set_wait "$7" hello_msg in
  IsWait true m = true /\ s_waiting (w_srv (s_w s)) !! m_wait m = None /\ s_th s !! 4 = None /\
  exists ch, c_waiting (conn_of (s_w s) 2) !! m_wait m = Some ch /\ ch_buf (chan_of (s_w s) ch) = [].
Proof. cbv zeta. split; [reflexivity|]. split; [vm_compute; reflexivity|]. split; [vm_compute; reflexivity|]. eexists. split; vm_compute; reflexivity. Qed.
