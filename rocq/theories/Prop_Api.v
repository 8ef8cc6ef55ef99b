(** * Prop_Api.v : property theorems (generated by tools/genprops.py from ApiProofs.v).
    Every proof is the lemma of the same name in ApiProofs.v. *)
From Coq Require Import ZArith.
From stdpp Require Import gmap strings list relations.
From RecordUpdate Require Import RecordUpdate.
From Verif Require Import Go Errors Message World Lang Code Sem Spec_Conn Spec_View Spec_Wire Spec_Api Examples CastProofs Prop_E2E.
From Verif Require Import ApiProofs.

(** C58. Emit and EmitBinary on an open connection whose handshake is over: the call returns [true] if the NSConn's
    namespace is connected (or the event is one of the two connection requests) and [false] otherwise; with [false]
    nothing is sent, with [true] exactly one frame of the right type, which any neffos end decodes to exactly the
    namespace, event and body, without room, token and error. *)
Theorem C58_emit : forall G t w n event body binary,
  let c := n_conn n in
  quiet G w c -> safe_name (n_name n) -> safe_name event ->
  exists w' ok f, exec t (emits G (Some n) event body binary) w = XDone w' ok /\ only c w w' /\ quiet G w' c /\
    (ok = true <-> connecting event \/ is_Some (cs_rooms (view w c) !! n_name n)) /\
    view w' c = (if ok then push f (view w c) else view w c) /\
    fst f = (if binary then BinaryMessage else TextMessage) /\
    forall G' b, onlyNative G' b = false -> received G' b (fst f) (snd f) = arrived G' b "" (said (n_name n) "" event body binary).
Proof. exact l_C58_emit. Qed.
Print Assumptions C58_emit.

(** C58. Room.Emit, likewise: the room travels too, and it must be joined (or the event be one of the announcements
    that Write lets through). *)
Theorem C58_room_emit : forall G t w n room event body,
  let c := n_conn n in
  quiet G w c -> safe_name (n_name n) -> safe_name room -> safe_name event ->
  exists w' ok f, exec t (impl G (ARoomEmit n room event body)) w = XDone w' ok /\ only c w w' /\ quiet G w' c /\
    (ok = true <-> connecting event \/
       exists rs, cs_rooms (view w c) !! n_name n = Some rs /\ (room = "" \/ event = OnRoomJoin \/ event = OnRoomLeft \/ room ∈ rs)) /\
    view w' c = (if ok then push f (view w c) else view w c) /\ fst f = TextMessage /\
    forall G' b, onlyNative G' b = false -> received G' b (fst f) (snd f) = arrived G' b "" (said (n_name n) room event body false).
Proof. exact l_C58_room_emit. Qed.
Print Assumptions C58_room_emit.

(** C58. Emit on a nil NSConn or on a closed connection: [false], nothing changes at all.  Ask on a nil NSConn: an error. *)
Theorem C58_nothing : forall G t w n event body binary x room,
  exec t (emits G None event body binary) w = XDone w false /\
  (exists e, exec t (impl G (ANSAsk None x event body)) w = XDone w (no_message, Some e)) /\
  (c_closed (conn_of w (n_conn n)) = true ->
   exec t (emits G (Some n) event body binary) w = XDone w false /\ exec t (impl G (ARoomEmit n room event body)) w = XDone w false).
Proof. exact l_C58_nothing. Qed.
Print Assumptions C58_nothing.

(** C58. Emit between two ends, for an event of the application.  The sender has the namespace connected.  The frame
    that Emit sends, when the other end handles it, runs the callback for exactly that event with exactly that message if the
    other end has the namespace connected, and nothing otherwise; nobody's memberships change; the other end sends at
    most one frame back, and none if the callback returned no error. *)
Theorem C58_delivered : forall G b Ab ta tb w n event body binary,
  let a := n_conn n in let ns := n_name n in
  let m := arrived G b "" (said ns "" event body binary) in
  a <> b -> setting G b Ab -> quiet G w a -> calm G w b -> safe_name ns -> safe_name event -> ~ protocol event ->
  is_Some (cs_rooms (view w a) !! ns) ->
  exists w1 f w2 err replies,
    exec ta (emits G (Some n) event body binary) w = XDone w1 true /\ view w1 a = push f (view w a) /\ view w1 b = view w b /\
    exec tb (HandlePayload G b (fst f) (snd f)) w1 = XDone w2 err /\ view w2 a = view w1 a /\
    quiet G w2 a /\ calm G w2 b /\
    cs_rooms (view w2 b) = cs_rooms (view w b) /\ cs_sent (view w2 b) = cs_sent (view w b) ++ replies /\ length replies <= 1 /\
    match cs_rooms (view w b) !! ns with
    | Some _ => cs_fired (view w2 b) = calls Ab ns m ++ cs_fired (view w b) /\ err = answer Ab ns m /\
                (err = None -> replies = [])
    | None => cs_fired (view w2 b) = cs_fired (view w b) /\ err = Some EBadNamespace /\ replies = []
    end.
Proof. exact l_C58_delivered. Qed.
Print Assumptions C58_delivered.

(** C58. The same for Room.Emit in a joined room. *)
Theorem C58_room_delivered : forall G b Ab ta tb w n room event body,
  let a := n_conn n in let ns := n_name n in
  let m := arrived G b "" (said ns room event body false) in
  a <> b -> setting G b Ab -> quiet G w a -> calm G w b -> safe_name ns -> safe_name room -> safe_name event -> ~ protocol event ->
  (exists rs, cs_rooms (view w a) !! ns = Some rs /\ room ∈ rs) ->
  exists w1 f w2 err replies,
    exec ta (impl G (ARoomEmit n room event body)) w = XDone w1 true /\ view w1 a = push f (view w a) /\ view w1 b = view w b /\
    exec tb (HandlePayload G b (fst f) (snd f)) w1 = XDone w2 err /\ view w2 a = view w1 a /\
    quiet G w2 a /\ calm G w2 b /\
    cs_rooms (view w2 b) = cs_rooms (view w b) /\ cs_sent (view w2 b) = cs_sent (view w b) ++ replies /\ length replies <= 1 /\
    match cs_rooms (view w b) !! ns with
    | Some _ => cs_fired (view w2 b) = calls Ab ns m ++ cs_fired (view w b) /\ err = answer Ab ns m /\
                (err = None -> replies = [])
    | None => cs_fired (view w2 b) = cs_fired (view w b) /\ err = Some EBadNamespace /\ replies = []
    end.
Proof. exact l_C58_room_delivered. Qed.
Print Assumptions C58_room_delivered.

(** C58. NSConn.Ask between two ends, for an event of the application whose remote callback returns [e]: the callback runs
    once with exactly that event and body, a Reply gives exactly its bytes, any other error gives the error that its text
    resolves to. *)
Theorem C58_ask : forall G b Aa Ab ta tb tr x n event body w rs e,
  let a := n_conn n in let ns := n_name n in
  let tok := genWait (g_client G a) (w_now w) in
  let m := said ns "" event body false in
  linked G a b Aa Ab w tok -> ctx_live w x -> safe_name ns -> safe_name event -> ~ protocol event ->
  is_Some (cs_rooms (view w a) !! ns) -> cs_rooms (view w b) !! ns = Some rs ->
  answer Ab ns (arrived G b tok m) = Some e ->
  exists w4 reply err, exchange G a b ta tb tr (impl G (ANSAsk (Some n) x event body)) w w4 (reply, err) /\ quiet G w4 a /\ quiet G w4 b /\
    err = seen_error (g_known G) (Some e) /\ m_body reply = seen_body (Some e) /\
    cs_fired (view w4 b) = calls Ab ns (arrived G b tok m) ++ cs_fired (view w b) /\
    cs_rooms (view w4 a) = cs_rooms (view w a) /\ cs_rooms (view w4 b) = cs_rooms (view w b).
Proof. exact l_C58_ask. Qed.
Print Assumptions C58_ask.

(** Two ends that have "chat" connected: 2 is the client, 1 the server.  The server's callback for "echo" returns a Reply. *)
Lemma ex_chat2 : exists n, in_namespace (s_w exM3) 2 "chat" n /\ n_conn n = 2 /\ n_name n = "chat" /\
  emits exG2 (Some n) "echo" "a;b" true = Emit exG2 (Some n) "echo" "a;b" true.
Proof. eexists. unfold in_namespace. split; [vm_compute; reflexivity|]. split; [reflexivity|]. split; reflexivity. Qed.
Example C58_example :
  reachable exG2 exM3 /\ (forall tok, linked exG2 2 1 exA2c exA2 (s_w exM3) tok) /\
  safe_name "chat" /\ safe_name "echo" /\ ~ protocol "echo" /\ safe_name "open" /\ ctx_live (s_w exM3) None /\
  (exists n, n_conn n = 2 /\ n_name n = "chat" /\ in_namespace (s_w exM3) 2 "chat" n) /\
  is_Some (cs_rooms (view (s_w exM3) 2) !! "chat") /\ cs_rooms (view (s_w exM3) 1) !! "chat" = Some {["open"; "jail"]} /\
  answer exA2 "chat" (arrived exG2 1 "" (said "chat" "" "echo" "a;b" true)) = Some (EReply "a;b") /\
  (exists n rs, n_conn n = 1 /\ cs_rooms (view (s_w exM3) 1) !! n_name n = Some rs /\ "open" ∈ rs).
Proof.
  split; [apply play_reachable|]. split; [apply ex_linked3|].
  do 2 (split; [apply E2EProofs.safe_by_computation; reflexivity|]). split; [unfold protocol, connecting; cbn; intuition discriminate|].
  split; [apply E2EProofs.safe_by_computation; reflexivity|]. split; [exact I|].
  split; [destruct ex_chat2 as (n & H1 & H2 & H3 & _); eauto|]. split; [eexists; vm_compute; reflexivity|].
  split; [decide_eq|]. split; [vm_compute; reflexivity|].
  exists (NsRef 1 "chat" 0), {["open"; "jail"]}. split; [reflexivity|]. split; [decide_eq|decide_eq].
Qed.

(** C59. Namespace tells whether the namespace is connected, and the NSConn it gives is the one of that connection and
    that name. *)
Theorem C59_namespace : forall G t w c name, quiet G w c ->
  exists r, exec t (impl G (ANamespace c name)) w = XDone w r /\
    (is_Some r <-> is_Some (cs_rooms (view w c) !! name)) /\
    forall n, r = Some n -> n_conn n = c /\ n_name n = name /\ in_namespace w c name n.
Proof. exact l_C59_namespace. Qed.
Print Assumptions C59_namespace.

(** C59. Room of a connected NSConn tells whether the room is joined; of a nil NSConn it is nil. *)
Theorem C59_room : forall G t w c n room, quiet G w c -> in_namespace w c (n_name n) n ->
  exec t (impl G (ARoom None room)) w = XDone w None /\
  exists r rs, exec t (impl G (ARoom (Some n) room)) w = XDone w r /\
    cs_rooms (view w c) !! n_name n = Some rs /\
    (room ∈ rs -> r = Some (n, room)) /\ (room ∉ rs -> r = None).
Proof. exact l_C59_room. Qed.
Print Assumptions C59_room.

(** C59. Rooms of a connected NSConn lists exactly the joined rooms, each once, in some order. *)
Theorem C59_rooms : forall G t w c n, quiet G w c -> in_namespace w c (n_name n) n ->
  exists w' l rs, exec t (impl G (ARooms (Some n))) w = XDone w' l /\ untouched w w' /\
    cs_rooms (view w c) !! n_name n = Some rs /\ NoDup l /\
    forall n' room, (n', room) ∈ l <-> n' = n /\ room ∈ rs.
Proof. exact l_C59_rooms. Qed.
Print Assumptions C59_rooms.

(** C59. GetConnections: under each ID there is a registered connection with that ID, and the ID of each registered
    connection is there.  So if the IDs are distinct, the map contains exactly the registered connections. *)
Theorem C59_connections_partial : forall G t w,
  exists w' M, exec t (impl G AGetConnections) w = XDone w' M /\ untouched w w' /\
    (forall id c, M !! id = Some c -> registered w c /\ id_of w c = id) /\
    (forall c, registered w c -> is_Some (M !! id_of w c)) /\
    ((forall c1 c2, registered w c1 -> registered w c2 -> id_of w c1 = id_of w c2 -> c1 = c2) ->
     forall id c, M !! id = Some c <-> registered w c /\ id_of w c = id).
Proof. exact l_C59_connections_partial. Qed.
Print Assumptions C59_connections_partial.

(** C59. GetConnectionsByNamespace, while no goroutine holds the namespaces of a registered connection: likewise for the
    registered connections that have the namespace connected, with their NSConn values. *)
Theorem C59_by_namespace_partial : forall G t w name,
  (forall c, registered w c -> c_nsmu (conn_of w c) = rw0 /\ is_Some (w_conns w !! c)) ->
  exists w' M, exec t (impl G (AGetConnectionsByNamespace name)) w = XDone w' M /\ untouched w w' /\
    (forall id n, M !! id = Some n -> exists c, registered w c /\ id_of w c = id /\ in_namespace w c name n) /\
    (forall c n, registered w c -> in_namespace w c name n -> is_Some (M !! id_of w c)) /\
    ((forall c1 c2, registered w c1 -> registered w c2 -> id_of w c1 = id_of w c2 -> c1 = c2) ->
     forall id n, M !! id = Some n <-> exists c, registered w c /\ id_of w c = id /\ in_namespace w c name n).
Proof. exact l_C59_by_namespace_partial. Qed.
Print Assumptions C59_by_namespace_partial.

(** C59, violated when two registered connections have the same ID: GetConnections lacks one of them. *)
Theorem C59_refuted : forall G t w c1 c2,
  registered w c1 -> registered w c2 -> c1 <> c2 -> id_of w c1 = id_of w c2 ->
  exists w' M c, exec t (impl G AGetConnections) w = XDone w' M /\ (c = c1 \/ c = c2) /\ forall id, M !! id <> Some c.
Proof. exact l_C59_refuted. Qed.
Print Assumptions C59_refuted.

(** Connection 1 of exM is in "chat" with two rooms.  castS has three registered connections, two of which have the ID ann. *)
Example C59_example :
  quiet exG (s_w exM) 1 /\ (exists n, n_name n = "chat" /\ in_namespace (s_w exM) 1 "chat" n) /\
  cs_rooms (view (s_w exM) 1) = {["chat" := {["open"; "jail"]}]} /\
  (forall c, registered (s_w exM) c -> c = 1) /\ registered (s_w exM) 1 /\
  reachable (castG true) castS /\ registered (s_w castS) 1 /\ registered (s_w castS) 2 /\ registered (s_w castS) 3 /\
  id_of (s_w castS) 1 = "ann" /\ id_of (s_w castS) 2 = "bob" /\ id_of (s_w castS) 3 = "ann" /\
  (forall c, registered (s_w castS) c -> c_nsmu (conn_of (s_w castS) c) = rw0 /\ is_Some (w_conns (s_w castS) !! c)).
Proof.
  split; [apply ex_calm; auto|]. split; [eexists; split; [|vm_compute; reflexivity]; reflexivity|]. split; [decide_eq|].
  assert (E : s_conns (w_srv (s_w exM)) = {[1]}) by decide_eq.
  assert (E' : s_conns (w_srv (s_w castS)) = {[1; 2; 3]}) by decide_eq.
  unfold registered. rewrite E, E'. split; [intros c; rewrite elem_of_singleton; auto|]. split; [apply elem_of_singleton; auto|].
  split; [apply cast_reachable|]. do 3 (split; [set_solver|]). do 3 (split; [vm_compute; reflexivity|]).
  intros c. rewrite !elem_of_union, !elem_of_singleton. intros [[->| ->]| ->]; (split; [vm_compute; reflexivity|eexists; vm_compute; reflexivity]).
Qed.

(** C60. WaitConnect.  A context that is over: its error.  The namespace is connected (now or at an earlier look) and the
    handshake was acknowledged: its NSConn.  Otherwise it looks again, later, and remembers the NSConn it found; it never gives up by itself and
    changes nothing. *)
Theorem C60_wait_connect : forall G t w c x ns found, quiet G w c ->
  let n := match found with Some n => Some n | None => c_nss (conn_of w c) !! ns end in
  match ended w x, n, c_acked (conn_of w c) with
  | Some e, _, _ => exec t (impl G (AWaitConnect c x ns found)) w = XDone w (None, Some e)
  | None, Some n, true => exec t (impl G (AWaitConnect c x ns found)) w = XDone w (Some n, None)
  | None, _, _ => exec t (impl G (AWaitConnect c x ns found)) w = XCall w (AWaitConnect c x ns n) Ret
  end.
Proof. exact l_C60_wait_connect. Qed.
Print Assumptions C60_wait_connect.

(** Connection 1 of exM: acknowledged and in "chat", not in "vip". *)
Example C60_example :
  quiet exG (s_w exM) 1 /\ c_acked (conn_of (s_w exM) 1) = true /\ ended (s_w exM) None = None /\
  is_Some (c_nss (conn_of (s_w exM) 1) !! "chat") /\ c_nss (conn_of (s_w exM) 1) !! "vip" = None.
Proof.
  split; [apply ex_calm; auto|]. split; [vm_compute; reflexivity|]. split; [reflexivity|]. split; [eexists; vm_compute; reflexivity|].
  vm_compute; reflexivity.
Qed.
