(** * Prop_Stuck.v : property theorems (generated by tools/genprops.py from StuckProofs.v).
    Every proof is the lemma of the same name in StuckProofs.v. *)
From Coq Require Import ZArith.
From stdpp Require Import gmap strings list relations.
From Verif Require Import Go Errors Message World Lang Code Sem Spec_App Spec_Conn Spec_View Examples Scenes Spec_Stuck StuckProofs.
From Verif Require Import StuckProofs.

(** C25 is violated.  An Ask without deadline waits for its reply on channel
    [ch] ([t] is at the select of conn.go:987-1001) and the connections know the
    channel no more (Close forgets all waiters, conn.go:1026-1028): then it
    waits for ever. *)
Theorem C25_refuted : forall (G : cfg) (s : sys) (t : tid) (ch : chid),
  user_app (fun _ => True) G -> reachable G s -> others_idle G s t ->
  at_op s t (OSelect ch None) ->
  ch < w_next (s_w s) -> ch_buf (chan_of (s_w s) ch) = [] ->
  (forall c tok, c_waiting (conn_of (s_w s) c) !! tok <> Some ch) ->
  (forall tok, s_waiting (w_srv (s_w s)) !! tok <> Some ch) ->
  (forall c, TReadNext c ch ∉ w_spawn (s_w s)) ->
  (forall c t', s_th s !! t' <> Some (code G (TReadNext c ch))) ->
  stuck G s t.
Proof. exact l_C25_refuted. Qed.
Print Assumptions C25_refuted.

(** A client asks ([hello_msg] with token "$7") and another goroutine closes the
    connection: the Ask never returns. *)
Example C25_example : let s := play deserted deserted_run (init deserted) in
  user_app (fun _ => True) deserted /\ reachable deserted s /\ c_closed (conn_of (s_w s) 2) = true /\
  asks (w_log (s_w s)) = ["$7"; "$0"] /\ answers (w_log (s_w s)) = [("$0", "", false)] /\
  others_idle deserted s 4 /\ at_op s 4 (OSelect 4 None) /\ stuck deserted s 4.
Proof. exact x_C25_example. Qed.

(** C27 is violated by Server.Ask.  A reply is put into the channel of a
    Server.Ask that has given up (capacity 0, server.go:559): the reader
    ([t] is at the send of conn.go:437) is blocked for ever. *)
Theorem C27_server_refuted : forall (G : cfg) (s : sys) (t : tid) (ch : chid) (k : nat),
  user_app (fun _ => True) G -> reachable G s -> others_idle G s t ->
  at_op s t (OChSent ch k) ->
  ch < w_next (s_w s) -> ch_cap (chan_of (s_w s) ch) = 0 -> ch_taken (chan_of (s_w s) ch) < k ->
  stuck G s t.
Proof. exact l_C27_server_refuted. Qed.
Print Assumptions C27_server_refuted.

(** The reader of connection 1 never handles another message: "7;chat;;echo;0;0;hi" was
    sent, its asker returned, and the reply stops the reader. *)
Example C27_server_example : let s := play impatient impatient_run (init impatient) in
  user_app (fun _ => True) impatient /\ reachable impatient s /\
  c_out (conn_of (s_w s) 1) = [(TextMessage, "Aid-1"); (TextMessage, "$1;;;;;;"); (TextMessage, "7;chat;;echo;0;0;hi")] /\
  s_th s !! 3 = None /\ answers (w_log (s_w s)) = [] /\
  others_idle impatient s 2 /\ stuck impatient s 2.
Proof. exact x_C27_server_example. Qed.

(** C31 is violated: a waiter ([t] is at the receive of waiter_once.go:53)
    whose gate was opened before it got there waits for ever. *)
Theorem C31_refuted : forall (G : cfg) (s : sys) (t : tid) (c : cid),
  user_app (fun _ => True) G -> reachable G s -> others_idle G s t ->
  at_op s t (OWRecv c) ->
  is_Some (w_conns (s_w s) !! c) -> w_ready (c_wait (conn_of (s_w s) c)) = true -> w_chclosed (c_wait (conn_of (s_w s) c)) = false ->
  stuck G s t.
Proof. exact l_C31_refuted. Qed.
Print Assumptions C31_refuted.

(** The server accepted the client and the client knows it, but Dial never returns. *)
Example C31_refuted_example : let s := play dialer dialer_run (init dialer) in
  user_app (fun _ => True) dialer /\ reachable dialer s /\
  c_acked (conn_of (s_w s) 2) = true /\ c_id (conn_of (s_w s) 2) = "id-1" /\ others_idle dialer s 1 /\ stuck dialer s 1.
Proof. exact x_C31_refuted_example. Qed.

(** C32 is violated: a reader waits for the process of a namespace ([t] is
    at WaitGroup.Wait, process.go:77) that is marked as done although its
    WaitGroup has not been released (two Connects started it, only the first
    Done counts, process.go:65): it waits for ever. *)
Theorem C32_refuted : forall (G : cfg) (s : sys) (t : tid) (p : pid) (g : nat),
  user_app (fun _ => True) G -> reachable G s -> others_idle G s t ->
  at_op s t (OProcWoken p g) ->
  p < w_next (s_w s) -> p_done (proc_of (s_w s) p) = true -> p_gen (proc_of (s_w s) p) <= g ->
  stuck G s t.
Proof. exact l_C32_refuted. Qed.
Print Assumptions C32_refuted.

(** Both Connects have returned; the reader of the client never handles another message. *)
Example C32_refuted_example : let s := play twins twins_run (init twins) in
  user_app (fun _ => True) twins /\ reachable twins s /\
  s_th s !! 3 = None /\ s_th s !! 4 = None /\ c_closed (conn_of (s_w s) 2) = false /\ others_idle twins s 2 /\ stuck twins s 2.
Proof. exact x_C32_refuted_example. Qed.
