(** * Prop_Cast.v : property theorems (generated by tools/genprops.py from CastProofs.v).
    Every proof is the lemma of the same name in CastProofs.v. *)
From Coq Require Import ZArith.
From stdpp Require Import gmap strings list relations.
From RecordUpdate Require Import RecordUpdate.
From Verif Require Import Go Errors Message World Lang Code Sem Spec_Conn Spec_View Examples Spec_Cast.
From Verif Require Import CastProofs.

(** C35. One message: an open connection whose handshake is over is sent exactly one frame if the message is
    meant for its ID and passes the rules of Write; otherwise nothing happens.  Nobody else is touched. *)
Theorem C35_one_partial : forall G c t w m,
  quiet G w c -> speakable m ->
  let self := if g_client G c then c_id (conn_of w c) else serverConnID G c in
  let gets := meant (c_id (conn_of w c)) m /\ sendable self (cs_rooms (view w c)) m in
  exists w', exec t (publishMessages G c [m]) w = XDone w' true /\ only c w w' /\ quiet G w' c /\
    (gets -> view w' c = push (wire_of m) (view w c)) /\ (~ gets -> view w' c = view w c).
Proof. exact l_C35_one_partial. Qed.
Print Assumptions C35_one_partial.

(** C35, the exact law for a batch: the connection is sent, in order, the messages that pass the rules of Write
    among those before the first one that is not meant for it.  Nothing behind that one is sent. *)
Theorem C35_batch_partial : forall G c t w before after,
  quiet G w c -> Forall speakable (before ++ after) ->
  Forall (meant (c_id (conn_of w c))) before ->
  (after = [] \/ exists m rest, after = m :: rest /\ ~ meant (c_id (conn_of w c)) m) ->
  exists w', exec t (publishMessages G c (before ++ after)) w = XDone w' true /\ only c w w' /\ quiet G w' c /\
    view w' c = view w c <| cs_sent ::= fun l =>
      l ++ map wire_of (List.filter (may_send (role_of G c w) (cs_rooms (view w c))) before) |>.
Proof. exact l_C35_batch_partial. Qed.
Print Assumptions C35_batch_partial.

(** C35, violated for several messages: a message that is not meant for a connection takes every later message
    of the same call away from it, also those it would be sent if they were broadcast alone. *)
Theorem C35_refuted : forall G c t w m1 m2,
  quiet G w c -> speakable m1 -> speakable m2 ->
  let self := if g_client G c then c_id (conn_of w c) else serverConnID G c in
  ~ meant (c_id (conn_of w c)) m1 ->
  meant (c_id (conn_of w c)) m2 -> sendable self (cs_rooms (view w c)) m2 ->
  (exists w', exec t (publishMessages G c [m2]) w = XDone w' true /\ view w' c = push (wire_of m2) (view w c)) /\
  (exists w', exec t (publishMessages G c [m1; m2]) w = XDone w' true /\ view w' c = view w c).
Proof. exact l_C35_refuted. Qed.
Print Assumptions C35_refuted.

(** C35. A connection whose ID is empty is sent no broadcast at all that does not name a sender. *)
Theorem C35_empty_id_refuted : forall G c t w m msgs,
  quiet G w c -> Forall speakable (m :: msgs) -> c_id (conn_of w c) = "" -> m_from m = "" ->
  exists w', exec t (publishMessages G c (m :: msgs)) w = XDone w' true /\ view w' c = view w c.
Proof. exact l_C35_empty_id_refuted. Qed.
Print Assumptions C35_empty_id_refuted.

(** C35. A closed connection is sent nothing, and a message meant for it ends the delivery to it. *)
Theorem C35_closed_partial : forall G c t w msgs,
  c_closed (conn_of w c) = true ->
  exists go_on, exec t (publishMessages G c msgs) w = XDone w go_on /\
    forall m rest, msgs = m :: rest -> meant (c_id (conn_of w c)) m -> go_on = false.
Proof. exact l_C35_closed_partial. Qed.
Print Assumptions C35_closed_partial.

(** C36. Broadcast of a message with a connection, or one of its NSConn values, as sender: what is handed over for
    distribution is sent to exactly the connections for which the message is meant and which pass the rules of
    Write, except the connection that was named.  Distinct connections have distinct addresses; the message
    is a fresh one (its From field is not set). *)
Theorem C36_connection : forall G t w s c0 m,
  addresses G -> g_client G c0 = false -> caster_free w ->
  (s = SendConn c0 \/ exists n, s = SendNS n /\ n_conn n = c0) -> speakable m -> m_from m = "" ->
  exists m' w1, gets_to t (Broadcast G (Some s) [m]) w w1 /\ handed_over G [m'] w w1 /\
  forall c t2 w2, g_client G c = false -> quiet G w2 c -> c_id (conn_of w2 c) <> "" ->
    exists w3, exec t2 (publishMessages G c [m']) w2 = XDone w3 true /\ only c w2 w3 /\ quiet G w3 c /\
    let gets := c <> c0 /\ (m_to m = "" \/ m_to m = c_id (conn_of w2 c)) /\ passes (cs_rooms (view w2 c)) m in
    (gets -> view w3 c = push (wire_of m) (view w2 c)) /\ (~ gets -> view w3 c = view w2 c).
Proof. exact l_C36_connection. Qed.
Print Assumptions C36_connection.

(** C36. Broadcast with a Room or an Exclude value as sender: all connections with that ID are excluded (the ID of
    the room's connection, the given text), nobody else.  The ID is not empty. *)
Theorem C36_id : forall G t w s id m,
  caster_free w ->
  ((exists n, s = SendRoom n /\ c_id (conn_of w (n_conn n)) = id) \/ s = SendExclude id) -> id <> "" ->
  speakable m -> m_fromExplicit m = "" ->
  exists m' w1, gets_to t (Broadcast G (Some s) [m]) w w1 /\ handed_over G [m'] w w1 /\
  forall c t2 w2, quiet G w2 c ->
    exists w3, exec t2 (publishMessages G c [m']) w2 = XDone w3 true /\ only c w2 w3 /\ quiet G w3 c /\
    let gets := c_id (conn_of w2 c) <> id /\ (m_to m = "" \/ m_to m = c_id (conn_of w2 c)) /\ passes (cs_rooms (view w2 c)) m in
    (gets -> view w3 c = push (wire_of m) (view w2 c)) /\ (~ gets -> view w3 c = view w2 c).
Proof. exact l_C36_id. Qed.
Print Assumptions C36_id.

(** C36. Without a sender nobody is excluded. *)
Theorem C36_nobody : forall G t w m,
  caster_free w -> speakable m -> m_fromExplicit m = "" -> m_from m = "" ->
  exists w1, gets_to t (Broadcast G None [m]) w w1 /\ handed_over G [m] w w1 /\
  forall c t2 w2, quiet G w2 c -> c_id (conn_of w2 c) <> "" ->
    exists w3, exec t2 (publishMessages G c [m]) w2 = XDone w3 true /\ only c w2 w3 /\ quiet G w3 c /\
    let gets := (m_to m = "" \/ m_to m = c_id (conn_of w2 c)) /\ passes (cs_rooms (view w2 c)) m in
    (gets -> view w3 c = push (wire_of m) (view w2 c)) /\ (~ gets -> view w3 c = view w2 c).
Proof. exact l_C36_nobody. Qed.
Print Assumptions C36_nobody.

(** C36. On a server side connection, the call of NSConn that broadcasts to the others excludes exactly the own connection;
    the one that broadcasts to all excludes nobody. *)
Theorem C36_nsconn : forall G t w n others m,
  addresses G -> g_client G (n_conn n) = false -> caster_free w -> speakable m -> m_from m = "" -> m_fromExplicit m = "" ->
  exists m' w1, gets_to t (impl G (ANSBroadcast (Some n) others [m])) w w1 /\ handed_over G [m'] w w1 /\
  forall c t2 w2, g_client G c = false -> quiet G w2 c -> c_id (conn_of w2 c) <> "" ->
    exists w3, exec t2 (publishMessages G c [m']) w2 = XDone w3 true /\ only c w2 w3 /\ quiet G w3 c /\
    let gets := (others = true -> c <> n_conn n) /\ (m_to m = "" \/ m_to m = c_id (conn_of w2 c)) /\ passes (cs_rooms (view w2 c)) m in
    (gets -> view w3 c = push (wire_of m) (view w2 c)) /\ (~ gets -> view w3 c = view w2 c).
Proof. exact l_C36_nsconn. Qed.
Print Assumptions C36_nsconn.

(** C35. Three accepted connections (1 and 3 with ID ann, 2 with ID bob), all in namespace chat.  The message for
    bob is meant for 2 only and the message from ann is meant for 2 only. *)
Example C35_example :
  let to_bob := set_to "bob" (set_event "hi" (set_namespace "chat" no_message)) in
  let from_ann := set_from "ann" (set_event "hi" (set_namespace "chat" no_message)) in
  let open := set_event "hi" (set_namespace "chat" no_message) in
  let id c := c_id (conn_of (s_w castS) c) in
  reachable (castG true) castS /\
  (forall c, 1 <= c <= 3 -> quiet (castG true) (s_w castS) c) /\
  (id 1 = "ann" /\ id 2 = "bob" /\ id 3 = "ann") /\
  (speakable to_bob /\ speakable from_ann /\ speakable open) /\
  (meant (id 2) to_bob /\ ~ meant (id 1) to_bob /\ meant (id 2) from_ann /\ ~ meant (id 3) from_ann) /\
  (meant (id 1) open /\ sendable (serverConnID (castG true) 1) (cs_rooms (view (s_w castS) 1)) open).
Proof. exact x_C35_example. Qed.

(** C36. The same server.  Connection 1 broadcasts to the others: 3, which has the same ID, is sent the message.
    Excluding the ID leaves it out as well. *)
Example C36_example :
  let m := set_event "hi" (set_namespace "chat" no_message) in
  let n := NsRef 1 "chat" 0 in
  addresses (castG true) /\ caster_free (s_w castS) /\ speakable m /\ m_from m = "" /\ m_fromExplicit m = "" /\
  c_id (conn_of (s_w castS) (n_conn n)) = "ann" /\
  forall c, 1 <= c <= 3 -> quiet (castG true) (s_w castS) c /\ c_id (conn_of (s_w castS) c) <> "" /\
    passes (cs_rooms (view (s_w castS) c)) m.
Proof. exact x_C36_example. Qed.
