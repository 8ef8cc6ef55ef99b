(** * Prop_Admit.v : property theorems (generated by tools/genprops.py from AdmitProofs.v).
    Every proof is the lemma of the same name in AdmitProofs.v. *)
From Coq Require Import ZArith.
From stdpp Require Import gmap strings list relations.
From RecordUpdate Require Import RecordUpdate.
From Verif Require Import Go Errors Message World Lang Code Sem Spec_App Spec_Admit Spec_Conn Spec_View Examples Scenes AdmitProofs.
From Verif Require Import AdmitProofs.

(** C57.  In every reachable state of any application, whatever its goroutines and callbacks do with the API, whatever the peers
    send and in whatever order things happen: a connection that is in a namespace was admitted to it: the namespace is declared on
    this side, and if it has a callback that is responsible for OnNamespaceConnect, the callback has run for this connection and
    this namespace with a message for which it can return no error.  (The only exception is the nameless namespace of a
    connection whose handler has native messages only: Upgrade and Dial connect it.) *)
Theorem C57_namespace : forall G s c ns rooms,
  user_app (fun _ => True) G -> reachable G s -> cs_rooms (view (s_w s) c) !! ns = Some rooms ->
  (onlyNative G c = true /\ ns = "") \/ exists n, admitted G (w_log (s_w s)) c ns n.
Proof. exact l_C57_namespace. Qed.
Print Assumptions C57_namespace.

(** C57.  The same for rooms: every room that a connection is in has been joined with the consent of OnRoomJoin. *)
Theorem C57_room : forall G s c ns rooms room,
  user_app (fun _ => True) G -> reachable G s -> cs_rooms (view (s_w s) c) !! ns = Some rooms -> room ∈ rooms ->
  exists n, n_conn n = c /\ n_name n = ns /\ let_in G (w_log (s_w s)) n room.
Proof. exact l_C57_room. Qed.
Print Assumptions C57_room.

(** C57.  So a namespace that is not declared, or whose OnNamespaceConnect callback never returns nil, is never entered. *)
Theorem C57_barred : forall G s c ns,
  user_app (fun _ => True) G -> reachable G s -> onlyNative G c = false \/ ns <> "" ->
  (forall evs, g_namespaces G c !! ns = Some evs -> exists h, evs !! OnNamespaceConnect = Some h /\ forall n m, m_namespace m = ns -> ~ agrees (h n m)) ->
  cs_rooms (view (s_w s) c) !! ns = None.
Proof. exact l_C57_barred. Qed.
Print Assumptions C57_barred.

(** C57.  Callbacks for the events of the application ([custom]: all but the seven of the protocol of namespaces and rooms) ran only in
    namespaces that the connection had been admitted to before ([l1] is the part of the history that came before the call). *)
Theorem C57_events : forall G s l2 n key m l1,
  user_app (fun _ => True) G -> reachable G s -> w_log (s_w s) = l2 ++ LFire n key m :: l1 -> custom m ->
  (onlyNative G (n_conn n) = true /\ n_name n = "") \/ admitted G l1 (n_conn n) (n_name n) n.
Proof. exact l_C57_events. Qed.
Print Assumptions C57_events.

(** C66, the part that holds in every schedule: a disconnect event comes only for a namespace that the connection had been
    admitted to before ([l1] is the part of the history that came before the call): the namespace is declared, and if a callback is
    responsible for OnNamespaceConnect in it, that callback had run for this very NSConn with a message for which it can return no error.
    Missing: that it comes exactly once for every admission, which is false (C66_missing_refuted, C66_twice_refuted). *)
Theorem C66_only_admitted_partial : forall G s l2 n key m l1,
  user_app (fun _ => True) G -> reachable G s -> w_log (s_w s) = l2 ++ LFire n key m :: l1 -> m_event m = OnNamespaceDisconnect ->
  (onlyNative G (n_conn n) = true /\ n_name n = "") \/ admitted G l1 (n_conn n) (n_name n) n.
Proof. exact l_C66_only_admitted_partial. Qed.
Print Assumptions C66_only_admitted_partial.

(** C66.  So a namespace whose OnNamespaceConnect always refuses has no disconnect events. *)
Theorem C66_refused_partial : forall G s c ns n key m,
  user_app (fun _ => True) G -> reachable G s -> onlyNative G c = false \/ ns <> "" ->
  (forall evs, g_namespaces G c !! ns = Some evs -> exists h, evs !! OnNamespaceConnect = Some h /\ forall n m, m_namespace m = ns -> ~ agrees (h n m)) ->
  LFire n key m ∈ w_log (s_w s) -> m_event m = OnNamespaceDisconnect -> ~ (n_conn n = c /\ n_name n = ns).
Proof. exact l_C66_refused_partial. Qed.
Print Assumptions C66_refused_partial.

(** C57.  So whatever the other side sends, no callback for such an event of a namespace whose OnNamespaceConnect always refuses ever runs. *)
Theorem C57_barred_events : forall G s c ns n key m,
  user_app (fun _ => True) G -> reachable G s -> onlyNative G c = false \/ ns <> "" ->
  (forall evs, g_namespaces G c !! ns = Some evs -> exists h, evs !! OnNamespaceConnect = Some h /\ forall n m, m_namespace m = ns -> ~ agrees (h n m)) ->
  LFire n key m ∈ w_log (s_w s) -> custom m -> ~ (n_conn n = c /\ n_name n = ns).
Proof. exact l_C57_barred_events. Qed.
Print Assumptions C57_barred_events.

(** C57.  And a room that OnRoomJoin refuses for every message that names it is never joined. *)
Theorem C57_barred_room : forall G s c ns rooms room evs h,
  user_app (fun _ => True) G -> reachable G s -> g_namespaces G c !! ns = Some evs -> evs !! OnRoomJoin = Some h ->
  (forall n m, m_namespace m = ns -> m_room m = room -> ~ agrees (h n m)) ->
  cs_rooms (view (s_w s) c) !! ns = Some rooms -> room ∉ rooms.
Proof. exact l_C57_barred_room. Qed.
Print Assumptions C57_barred_room.

(** C68.  In every reachable state of any application, whatever its goroutines and callbacks do with the API (emit, broadcast, ask, ...), whatever the peers
    send and in whatever order things happen: every frame that went out on a connection is a frame of the handshake, an empty reply, a message about connecting or
    disconnecting a namespace, or a message of a namespace which this connection had been admitted to, by its OnNamespaceConnect callback, and, if it is for a
    room, of a room which it had been let into by OnRoomJoin.  (As in C57 there is the nameless namespace of native-only connections.) *)
Theorem C68_frames : forall G s c typ b,
  user_app (fun _ => True) G -> reachable G s -> (typ, b) ∈ c_out (conn_of (s_w s) c) ->
  handshake_frame b \/ empty_reply b \/
  exists m, bytes_of m b /\
    (about_admission m \/
     exists n, (admitted G (w_log (s_w s)) c (m_namespace m) n \/ onlyNative G c = true /\ m_namespace m = "" /\ n_conn n = c /\ n_name n = "") /\
       (to_room m -> let_in G (w_log (s_w s)) n (m_room m))).
Proof. exact l_C68_frames. Qed.
Print Assumptions C68_frames.

(** C68.  So nothing of a namespace that is not declared, or whose OnNamespaceConnect callback never returns nil, ever goes out on the connection, whatever is broadcast or emitted. *)
Theorem C68_barred : forall G s c ns typ b,
  user_app (fun _ => True) G -> reachable G s -> onlyNative G c = false \/ ns <> "" ->
  (forall evs, g_namespaces G c !! ns = Some evs -> exists h, evs !! OnNamespaceConnect = Some h /\ forall n m, m_namespace m = ns -> ~ agrees (h n m)) ->
  (typ, b) ∈ c_out (conn_of (s_w s) c) ->
  handshake_frame b \/ empty_reply b \/ exists m, bytes_of m b /\ (about_admission m \/ m_namespace m <> ns).
Proof. exact l_C68_barred. Qed.
Print Assumptions C68_barred.

(** C68.  And no message for the members of a room that OnRoomJoin refuses. *)
Theorem C68_barred_room : forall G s c ns room evs h typ b,
  user_app (fun _ => True) G -> reachable G s -> g_namespaces G c !! ns = Some evs -> evs !! OnRoomJoin = Some h ->
  (forall n m, m_namespace m = ns -> m_room m = room -> ~ agrees (h n m)) ->
  (typ, b) ∈ c_out (conn_of (s_w s) c) ->
  handshake_frame b \/ empty_reply b \/ exists m, bytes_of m b /\ (about_admission m \/ ~ (m_namespace m = ns /\ m_room m = room /\ to_room m)).
Proof. exact l_C68_barred_room. Qed.
Print Assumptions C68_barred_room.

(** C57.  A reachable state of the example application: connection 1 asked for namespace "chat" and its rooms "open", "jail" and "closed", and
    for namespace "vip", and sent an event to "vip" and one to "chat".  It is in "chat", "open" and "jail", the callback for the event in "chat" has run, and the
    callbacks satisfy the hypotheses of the theorems about refusals for "vip" and for room "closed". *)
Example C57_example : let s := play admit_scene admit_run (init admit_scene) in
  user_app (fun _ => True) admit_scene /\ reachable admit_scene s /\
  (exists rooms, cs_rooms (view (s_w s) 1) !! "chat" = Some rooms /\ "open" ∈ rooms /\ "jail" ∈ rooms) /\
  (exists l2 n m l1, w_log (s_w s) = l2 ++ LFire n "echo" m :: l1 /\ custom m /\ n_conn n = 1 /\ n_name n = "chat") /\
  (exists evs h, g_namespaces admit_scene 1 !! "vip" = Some evs /\ evs !! OnNamespaceConnect = Some h /\ forall n m, ~ agrees (h n m)) /\
  (exists evs h, g_namespaces admit_scene 1 !! "chat" = Some evs /\ evs !! OnRoomJoin = Some h /\ forall n m, m_room m = "closed" -> ~ agrees (h n m)).
Proof. exact x_C57_example. Qed.

(** C66.  The same application, and then the client leaves "chat": the last callback that ran is the one for OnNamespaceDisconnect. *)
Example C66_admitted_example : let s := play admit_scene bye_run (init admit_scene) in
  user_app (fun _ => True) admit_scene /\ reachable admit_scene s /\
  (exists l2 n key m l1, w_log (s_w s) = l2 ++ LFire n key m :: l1 /\ m_event m = OnNamespaceDisconnect /\ n_conn n = 1 /\ n_name n = "chat") /\
  (exists evs h, g_namespaces admit_scene 1 !! "vip" = Some evs /\ evs !! OnNamespaceConnect = Some h /\ forall n m, ~ agrees (h n m)).
Proof. exact x_C66_admitted_example. Qed.

(** C68.  Connection 1 is in "chat" and room "open", and was refused "vip" and room "closed".  The server broadcasts one message to each of "vip", "closed" and "open": only
    the last one goes out. *)
Example C68_example : let s := play leak_scene leak_run (init leak_scene) in
  user_app (fun _ => True) leak_scene /\ reachable leak_scene s /\
  c_out (conn_of (s_w s) 1) = [(TextMessage, "Aid-1"); (TextMessage, "$1;;;;;;"); (TextMessage, "$2;;;;;;"); (TextMessage, "$3;;;;;;");
    (TextMessage, "$4;chat;closed;_OnRoomJoin;1;0;closed room"); (TextMessage, "$5;vip;;_OnNamespaceConnect;1;0;members only");
    (TextMessage, ";chat;;echo;0;0;x"); (TextMessage, ";chat;open;news;0;0;c")] /\
  bytes_of (secret "chat" "open" "c") ";chat;open;news;0;0;c" /\ ~ about_admission (secret "chat" "open" "c") /\ to_room (secret "chat" "open" "c") /\
  (exists evs h, g_namespaces leak_scene 1 !! "vip" = Some evs /\ evs !! OnNamespaceConnect = Some h /\ forall n m, ~ agrees (h n m)) /\
  (exists evs h, g_namespaces leak_scene 1 !! "chat" = Some evs /\ evs !! OnRoomJoin = Some h /\ forall n m, m_room m = "closed" -> ~ agrees (h n m)).
Proof. exact x_C68_example. Qed.
