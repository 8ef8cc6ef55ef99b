(** * Prop_Lock.v : property theorems (generated by tools/genprops.py from LockProofs.v).
    Every proof is the lemma of the same name in LockProofs.v. *)
From Coq Require Import ZArith.
From stdpp Require Import gmap strings list relations.
From Verif Require Import Go Errors Message World Lang Code Sem Spec_App Spec_Conn Spec_View Examples Scenes Spec_Stuck StuckProofs LockProofs.
From Verif Require Import LockProofs.

(** C46 is violated by DisconnectAll.  A goroutine calls DisconnectAll on a
    connection with a broken socket and a connected namespace: the Ask fails,
    the failed write closes the connection, and Close wants the lock that
    DisconnectAll holds (conn.go:719, 1020).  The call never returns. *)
Theorem C46_refuted : forall (G : cfg) (s : sys) (t : tid) (c : cid) (x : ctxref) k,
  reachable G s -> s_crash s = None -> s_th s !! t = Some (Call (ADisconnectAll c x) k) ->
  broken G (s_w s) c -> in_time (s_w s) x ->
  c_nsmu (conn_of (s_w s) c) = rw0 -> c_nss (conn_of (s_w s) c) <> ∅ ->
  exists s', steps G s s' /\ stuck G s' t.
Proof. exact l_C46_refuted. Qed.
Print Assumptions C46_refuted.

(** C46 is violated by LeaveAll too: here Close wants the lock of the rooms
    (conn_namespace.go:131, 147).  For simplicity [n] is the only connected
    namespace. *)
Theorem C46_leave_refuted : forall (G : cfg) (s : sys) (t : tid) (n : nsref) (x : ctxref) k,
  reachable G s -> s_crash s = None -> s_th s !! t = Some (Call (ALeaveAll (Some n) x) k) ->
  valid_ns (s_w s) n = true -> n_id n < w_next (s_w s) ->
  broken G (s_w s) (n_conn n) -> in_time (s_w s) x ->
  c_nsmu (conn_of (s_w s) (n_conn n)) = rw0 -> c_nss (conn_of (s_w s) (n_conn n)) = {[n_name n := n]} ->
  o_mu (ns_of (s_w s) n) = rw0 -> o_rooms (ns_of (s_w s) n) <> ∅ ->
  exists s', steps G s s' /\ stuck G s' t.
Proof. exact l_C46_leave_refuted. Qed.
Print Assumptions C46_leave_refuted.

(** C47 is violated.  A connection with the single connected namespace [n]
    is closed while [n] has rooms, and the OnRoomLeave callback of [n] looks at
    the rooms of [n]: the callback runs while Close holds the lock of the rooms
    (conn_namespace.go:147), so it never returns, and neither does Close. *)
Theorem C47_refuted : forall (G : cfg) (s : sys) (t : tid) (n : nsref) k h,
  reachable G s -> s_crash s = None -> s_th s !! t = Some (Call (AClose (n_conn n)) k) ->
  valid_ns (s_w s) n = true -> n_id n < w_next (s_w s) -> onlyNative G (n_conn n) = false -> c_closed (conn_of (s_w s) (n_conn n)) = false ->
  c_nsmu (conn_of (s_w s) (n_conn n)) = rw0 -> c_nss (conn_of (s_w s) (n_conn n)) = {[n_name n := n]} ->
  o_mu (ns_of (s_w s) n) = rw0 -> o_rooms (ns_of (s_w s) n) <> ∅ ->
  ns_events G n !! OnRoomLeave = Some h -> (forall m, exists a q, h n m = Call a q /\ room_query n a) ->
  exists s', steps G s s' /\ stuck G s' t.
Proof. exact l_C47_refuted. Qed.
Print Assumptions C47_refuted.

(** The application then calls DisconnectAll (goroutine 0 of the application)
    or LeaveAll (1): it never returns. *)
Example C46_example : let s := play snapped snapped_run (init snapped) in
  user_app (fun _ => True) snapped /\ reachable snapped s /\ c_nss (conn_of (s_w s) 1) = {["chat" := the_chat]} /\ o_rooms (ns_of (s_w s) the_chat) = {["open"]} /\
  broken snapped (s_w s) 1 /\
  (forall k, exists s1 t s2, step snapped (Env (EGo (TUser k))) s = Some s1 /\ s_th s1 !! t = Some (code snapped (TUser k)) /\ steps snapped s1 s2 /\ stuck snapped s2 t).
Proof. exact x_C46_example. Qed.

(** The connection is in room "open"; the application closes it: Close never returns. *)
Example C47_example : let s := play nosy nosy_run (init nosy) in
  user_app (fun _ => True) nosy /\ reachable nosy s /\ c_nss (conn_of (s_w s) 1) = {["chat" := the_chat]} /\ o_rooms (ns_of (s_w s) the_chat) = {["open"]} /\
  exists s1 t s2, step nosy (Env (EGo (TUser 0))) s = Some s1 /\ s_th s1 !! t = Some (code nosy (TUser 0)) /\ steps nosy s1 s2 /\ stuck nosy s2 t.
Proof. exact x_C47_example. Qed.

(** C47 is violated for OnNamespaceDisconnect too: Close calls it while it holds the lock of the namespaces of the connection
    ([t] is its writer then; DisconnectAll does the same).  If the callback looks at the namespaces of the connection, then
    it never returns, and neither does Close. *)
Theorem C47_namespaces_refuted : forall (G : cfg) (s : sys) (t : tid) c a k,
  reachable G s -> s_crash s = None -> s_th s !! t = Some (Call a k) -> valid_api (s_w s) a = true -> is_Some (w_conns (s_w s) !! c) ->
  rw_writer (c_nsmu (conn_of (s_w s) c)) = Some t -> ns_query G c a ->
  exists s', steps G s s' /\ stuck G s' t.
Proof. exact l_C47_namespaces_refuted. Qed.
Print Assumptions C47_namespaces_refuted.

(** The application closes a connection that is in "chat", and Close has called OnNamespaceDisconnect, which asks for the namespace. *)
Example C47_namespaces_example : let s := play asks_back asks_run (init asks_back) in
  user_app (fun _ => True) asks_back /\ reachable asks_back s /\ s_crash s = None /\ is_Some (w_conns (s_w s) !! 1) /\
  rw_writer (c_nsmu (conn_of (s_w s) 1)) = Some (3 : tid) /\
  exists a k, s_th s !! (3 : tid) = Some (Call a k) /\ valid_api (s_w s) a = true /\ ns_query asks_back 1 a.
Proof. exact x_C47_namespaces_example. Qed.
