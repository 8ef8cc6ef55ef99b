(** * Prop_Hung.v : property theorems (generated by tools/genprops.py from HungProofs.v).
    Every proof is the lemma of the same name in HungProofs.v. *)
From Coq Require Import ZArith.
From stdpp Require Import gmap strings list relations.
From Verif Require Import Go Errors Message World Lang Code Sem Spec_App Spec_Conn Spec_View Examples Scenes Spec_Stuck Spec_Cross HungProofs.
From Verif Require Import HungProofs.

(** C46 is violated by DisconnectAll also with a working socket.  [t] has asked the other side to disconnect a namespace of [c] and waits
    for the answer without deadline; it holds the lock of the namespaces (conn.go:719).  [u] is the reader of [c]: any event, join or leave
    request or connect request that comes before the answer needs that lock for reading (conn.go:576).  Then both wait for ever, whatever else happens: the answer
    is never read. *)
Theorem C46_reader_refuted : forall (G : cfg) (s : sys) (t u : tid) (c : cid) (ch : chid),
  user_app (not_fed c) G -> reachable G s -> is_Some (w_conns (s_w s) !! c) ->
  at_op s t (OSelect ch None) -> answered_by (s_w s) c ch -> rw_writer (c_nsmu (conn_of (s_w s) c)) = Some t ->
  at_op s u (ONsRLock c) -> nobody_helps G s t u c ch ->
  stuck G s t /\ stuck G s u.
Proof. exact l_C46_reader_refuted. Qed.
Print Assumptions C46_reader_refuted.

(** C46 is violated by LeaveAll in the same way: it holds the lock of the rooms of [n] (conn_namespace.go:131) while it waits for
    the answer of the other side; a join or leave request, or any message whose answer is written to a room of [n], that comes before needs that lock. *)
Theorem C46_reader_rooms_refuted : forall (G : cfg) (s : sys) (t u : tid) (c : cid) (ch : chid) (n : nsref),
  user_app (not_fed c) G -> reachable G s -> is_Some (w_conns (s_w s) !! c) ->
  at_op s t (OSelect ch None) -> answered_by (s_w s) c ch -> n_id n < w_next (s_w s) -> rw_writer (o_mu (ns_of (s_w s) n)) = Some t ->
  at_op s u (ORoomRLock n) \/ at_op s u (ORoomLock n) -> nobody_helps G s t u c ch ->
  stuck G s t /\ stuck G s u.
Proof. exact l_C46_reader_rooms_refuted. Qed.
Print Assumptions C46_reader_rooms_refuted.

(** Client 2 is connected to "chat" and calls DisconnectAll.  The server sends an event
    and then the agreement; the client does not get as far as reading the agreement: neither DisconnectAll nor the reader ever goes on. *)
Example C46_reader_example : let s := play tangled tangled_run (init tangled) in
  user_app (not_fed 2) tangled /\ reachable tangled s /\
  last (c_out (conn_of (s_w s) 2)) = Some (TextMessage, "$2;chat;;_OnNamespaceDisconnect;0;0;") /\
  c_in (conn_of (s_w s) 2) = [(TextMessage, "$2;;;;;;")] /\ c_closed (conn_of (s_w s) 2) = false /\ s_crash s = None /\
  stuck tangled s 7 /\ stuck tangled s 4.
Proof. exact x_C46_reader_example. Qed.

(** Client 2 has joined "r" of "chat" and calls LeaveAll, while the server asks it to leave
    the room: neither LeaveAll nor the reader ever goes on. *)
Example C46_reader_rooms_example : let s := play tangled tangled_rooms_run (init tangled) in
  user_app (not_fed 2) tangled /\ reachable tangled s /\
  last (c_out (conn_of (s_w s) 2)) = Some (TextMessage, "$2;chat;r;_OnRoomLeave;0;0;") /\
  c_in (conn_of (s_w s) 2) = [(TextMessage, "$2;;;;;;")] /\ c_closed (conn_of (s_w s) 2) = false /\ s_crash s = None /\
  stuck tangled s 7 /\ stuck tangled s 4.
Proof. exact x_C46_reader_rooms_example. Qed.
