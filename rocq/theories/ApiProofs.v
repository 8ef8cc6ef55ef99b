(** * ApiProofs.v : C58 emitting, C59 queries, C60 WaitConnect. *)
From Coq Require Import ZArith.
From stdpp Require Import gmap strings list relations.
From RecordUpdate Require Import RecordUpdate.
From Verif Require Import Go Errors Message World Lang Code Sem ExecProofs Spec_Conn Spec_View Spec_Wire CodecProofs WireProofs SeqProofs ConnProofs LocalProofs E2EProofs Spec_Api.

(** ** Emitting *)
Lemma said_arrives G b ns room event body binary : onlyNative G b = false ->
  safe_name ns -> safe_name room -> safe_name event ->
  let m := said ns room event body binary in
  received G b (fst (wire_of m)) (snd (wire_of m)) = arrived G b "" m.
Proof.
  intros Hon Hn Hr Hev m. unfold received. rewrite Hon. unfold wire_of. cbn [fst snd].
  destruct (serialize_printable m) as [by_ Hb]; [exact I|]. rewrite Hb.
  destruct (deserialize_serialized (g_known G) (if m_setBinary m then BinaryMessage else TextMessage) (allowNative G b) (set_fromExplicit "" m) by_)
    as (x & p & _ & Hx & E & Hc); [intros [H _]; discriminate H|reflexivity| |exact Hb|].
  { split; [vm_compute; tauto|]. intros [[r H]|(q & d & r & H)]; discriminate H. }
  rewrite E. clear E.
  destruct Hc as [(_ & -> & ->)|[(rb & H & _)|(ge & t & H & _)]]; [|discriminate H|discriminate H].
  unfold m, said. cbn [m_wait m_namespace m_room m_event m_body m_isNoOp m_setBinary set_fromExplicit set_setBinary set_body set_event set_room set_namespace no_message].
  rewrite !unescape_escape by assumption. rewrite arrived_eq. cbn. f_equal.
  - destruct body; reflexivity.
  - destruct body; reflexivity.
  - f_equal. apply eq_bool_prop_intro. rewrite !Is_true_true. rewrite !String.eqb_eq. split.
    + intros H. rewrite <- (unescape_escape event) by assumption. rewrite H. reflexivity.
    + intros H. rewrite H. reflexivity.
  - destruct binary; reflexivity.
Qed.

Lemma said_sendable self M ns room event body binary :
  sendable self M (said ns room event body binary) <->
  connecting event \/ exists rs, M !! ns = Some rs /\ (room = "" \/ event = OnRoomJoin \/ event = OnRoomLeft \/ room ∈ rs).
Proof. unfold sendable, connecting, said. cbn. tauto. Qed.

Lemma said_write G c t w ns room event body binary : quiet G w c ->
  let m := said ns room event body binary in
  exists w' ok, exec t (Write G c m) w = XDone w' ok /\ only c w w' /\ quiet G w' c /\
    (ok = true <-> connecting event \/
       exists rs, cs_rooms (view w c) !! ns = Some rs /\ (room = "" \/ event = OnRoomJoin \/ event = OnRoomLeft \/ room ∈ rs)) /\
    view w' c = if ok then push (wire_of m) (view w c) else view w c.
Proof.
  intros Q m. destruct (Write_runs G c t w (view w c) (c_nss (conn_of w c)) m (At _ _ _ _ _ Q eq_refl eq_refl) Logic.I)
    as (w' & E & H' & O). exists w'. eexists. split; [exact E|]. split; [exact O|]. split; [apply H'|]. split.
  - rewrite <- (said_sendable (r_self (role_of G c w)) (cs_rooms (view w c)) ns room event body binary). apply may_send_sendable.
  - rewrite (a_view _ _ _ _ _ H'). reflexivity.
Qed.

(*@file Prop_Api.v
From Coq Require Import ZArith.
From stdpp Require Import gmap strings list relations.
From RecordUpdate Require Import RecordUpdate.
From Verif Require Import Go Errors Message World Lang Code Sem Spec_Conn Spec_View Spec_Wire Spec_Api Examples CastProofs Prop_E2E.
@*)

(*@prop C58. Emit and EmitBinary on an open connection whose handshake is over: the call returns [true] if the NSConn's
    namespace is connected (or the event is one of the two connection requests) and [false] otherwise; with [false]
    nothing is sent, with [true] exactly one frame of the right type, which any neffos end decodes to exactly the
    namespace, event and body, without room, token and error. @*)
Lemma l_C58_emit : forall G t w n event body binary,
  let c := n_conn n in
  quiet G w c -> safe_name (n_name n) -> safe_name event ->
  exists w' ok f, exec t (emits G (Some n) event body binary) w = XDone w' ok /\ only c w w' /\ quiet G w' c /\
    (ok = true <-> connecting event \/ is_Some (cs_rooms (view w c) !! n_name n)) /\
    view w' c = (if ok then push f (view w c) else view w c) /\
    fst f = (if binary then BinaryMessage else TextMessage) /\
    forall G' b, onlyNative G' b = false -> received G' b (fst f) (snd f) = arrived G' b "" (said (n_name n) "" event body binary).
Proof.
  intros G t w n event body binary c Q Hn Hev.
  destruct (said_write G c t w (n_name n) "" event body binary Q) as (w' & ok & E & O & Q' & Hok & V).
  exists w', ok. eexists. split; [rewrite <- E; destruct binary; reflexivity|]. split; [exact O|]. split; [exact Q'|]. split.
  { rewrite Hok. unfold is_Some. split; [intros [H|(rs & H & _)]|intros [H|[rs H]]]; eauto 6. }
  split; [exact V|]. split; [reflexivity|]. intros G' b Hon. apply said_arrives; auto. apply safe_by_computation. reflexivity.
Qed.

(*@prop C58. Room.Emit, likewise: the room travels too, and it must be joined (or the event be one of the announcements
    that Write lets through). @*)
Lemma l_C58_room_emit : forall G t w n room event body,
  let c := n_conn n in
  quiet G w c -> safe_name (n_name n) -> safe_name room -> safe_name event ->
  exists w' ok f, exec t (impl G (ARoomEmit n room event body)) w = XDone w' ok /\ only c w w' /\ quiet G w' c /\
    (ok = true <-> connecting event \/
       exists rs, cs_rooms (view w c) !! n_name n = Some rs /\ (room = "" \/ event = OnRoomJoin \/ event = OnRoomLeft \/ room ∈ rs)) /\
    view w' c = (if ok then push f (view w c) else view w c) /\ fst f = TextMessage /\
    forall G' b, onlyNative G' b = false -> received G' b (fst f) (snd f) = arrived G' b "" (said (n_name n) room event body false).
Proof.
  intros G t w n room event body c Q Hn Hr Hev.
  destruct (said_write G c t w (n_name n) room event body false Q) as (w' & ok & E & O & Q' & Hok & V).
  exists w', ok. eexists. split; [exact E|]. split; [exact O|]. split; [exact Q'|]. split; [exact Hok|].
  split; [exact V|]. split; [reflexivity|]. intros G' b Hon. apply said_arrives; auto.
Qed.

(*@prop C58. Emit on a nil NSConn or on a closed connection: [false], nothing changes at all.  Ask on a nil NSConn: an error. @*)
Lemma l_C58_nothing : forall G t w n event body binary x room,
  exec t (emits G None event body binary) w = XDone w false /\
  (exists e, exec t (impl G (ANSAsk None x event body)) w = XDone w (no_message, Some e)) /\
  (c_closed (conn_of w (n_conn n)) = true ->
   exec t (emits G (Some n) event body binary) w = XDone w false /\ exec t (impl G (ARoomEmit n room event body)) w = XDone w false).
Proof.
  intros G t w n event body binary x room. split; [destruct binary; reflexivity|]. split; [eexists; reflexivity|].
  intros H. split; [|apply l_C18_write_closed, H]. unfold emits. destruct binary; apply l_C18_write_closed, H.
Qed.

(** ** Delivery *)
Lemma only_calm G a b w w' : only a w w' -> a <> b -> quiet G w' a -> calm G w b -> calm G w' b /\ view w' b = view w b.
Proof.
  intros O Hne Qa [Qb Ib]. pose proof (only_others _ _ _ O) as Z. split; [split|].
  - eapply others_quiet; eauto.
  - intros name p E. rewrite (others_conn _ _ _ _ Z (not_eq_sym Hne)) in E. destruct (Ib _ _ E) as [Hp Hi].
    pose proof (y_next _ _ _ O). split; [lia|]. rewrite (y_procs _ _ _ O p Hp). exact Hi.
  - eapply others_view; eauto.
Qed.

Lemma said_handled G b Ab tb w ns room event body binary f :
  setting G b Ab -> calm G w b -> ~ protocol event ->
  let m := arrived G b "" (said ns room event body binary) in
  received G b (fst f) (snd f) = m ->
  exists w2 err replies, exec tb (HandlePayload G b (fst f) (snd f)) w = XDone w2 err /\ only b w w2 /\ calm G w2 b /\
    cs_rooms (view w2 b) = cs_rooms (view w b) /\ cs_sent (view w2 b) = cs_sent (view w b) ++ replies /\ length replies <= 1 /\
    match cs_rooms (view w b) !! ns with
    | Some _ => cs_fired (view w2 b) = calls Ab ns m ++ cs_fired (view w b) /\ err = answer Ab ns m /\
                (err = None -> replies = [])
    | None => cs_fired (view w2 b) = cs_fired (view w b) /\ err = Some EBadNamespace /\ replies = []
    end.
Proof.
  intros Sb Cb Hev m Erec.
  assert (U : unasked G w b m). { left. unfold m. rewrite arrived_eq. unfold IsWait. cbn. destruct (g_client G b); reflexivity. }
  destruct (handleMessage_runs G b Ab Sb tb w m Cb U) as (order & w2 & _ & E2 & V2 & C2 & O2).
  unfold handle in E2, V2. change (m_isInvalid m) with false in E2, V2. change (m_event m) with event in E2, V2.
  change (m_namespace m) with ns in E2, V2. unfold protocol, connecting in Hev.
  assert (Hx1 : String.eqb event OnNamespaceConnect = false) by (apply String.eqb_neq; tauto).
  assert (Hx2 : String.eqb event OnNamespaceDisconnect = false) by (apply String.eqb_neq; tauto).
  assert (Hx3 : String.eqb event OnRoomJoin = false) by (apply String.eqb_neq; tauto).
  assert (Hx4 : String.eqb event OnRoomLeave = false) by (apply String.eqb_neq; tauto).
  rewrite Hx1, Hx2, Hx3, Hx4 in E2, V2.
  assert (HP : exec tb (HandlePayload G b (fst f) (snd f)) w = exec tb (handleMessage G b m) w).
  { unfold HandlePayload, deserialize. fold (received G b (fst f) (snd f)). rewrite Erec. reflexivity. }
  assert (Hl : set_isLocal false m = m) by (unfold m; rewrite arrived_eq; reflexivity).
  destruct (cs_rooms (view w b) !! ns) as [rs|] eqn:ER.
  2:{ cbn in E2, V2. exists w2, (Some EBadNamespace), []. rewrite HP. split; [exact E2|]. split; [exact O2|]. split; [exact C2|].
      rewrite V2, app_nil_r. cbn. repeat split; auto; lia. }
  cbv zeta in E2, V2. rewrite Hl in E2, V2. rewrite fire_calls in V2.
  destruct (answer Ab ns m) as [e|] eqn:Hans; cbn [fst snd] in E2, V2.
  - unfold err_reply, try_send in V2. cbn [cs_rooms] in V2.
    set (ok := may_send _ _ _) in V2.
    exists w2, (Some e), (if ok then [wire_of (set_err (Some e) m)] else []). rewrite HP. split; [exact E2|]. split; [exact O2|]. split; [exact C2|].
    destruct ok; rewrite V2; cbn; (split; [reflexivity|]); (split; [try rewrite app_nil_r; reflexivity|]); (split; [lia|]); (split; [reflexivity|]); (split; [reflexivity|]); discriminate.
  - exists w2, None, []. rewrite HP. split; [exact E2|]. split; [exact O2|]. split; [exact C2|].
    rewrite V2. cbn. rewrite app_nil_r. repeat split; auto; lia.
Qed.

(*@prop C58. Emit between two ends, for an event of the application.  The sender has the namespace connected.  The frame
    that Emit sends, when the other end handles it, runs the callback for exactly that event with exactly that message if the
    other end has the namespace connected, and nothing otherwise; nobody's memberships change; the other end sends at
    most one frame back, and none if the callback returned no error. @*)
Lemma l_C58_delivered : forall G b Ab ta tb w n event body binary,
  let a := n_conn n in let ns := n_name n in
  let m := arrived G b "" (said ns "" event body binary) in
  a <> b -> setting G b Ab -> quiet G w a -> calm G w b -> safe_name ns -> safe_name event -> ~ protocol event ->
  is_Some (cs_rooms (view w a) !! ns) ->
  exists w1 f w2 err replies,
    exec ta (emits G (Some n) event body binary) w = XDone w1 true /\ view w1 a = push f (view w a) /\ view w1 b = view w b /\
    exec tb (HandlePayload G b (fst f) (snd f)) w1 = XDone w2 err /\ view w2 a = view w1 a /\
    quiet G w2 a /\ calm G w2 b /\
    cs_rooms (view w2 b) = cs_rooms (view w b) /\ cs_sent (view w2 b) = cs_sent (view w b) ++ replies /\ length replies <= 1 /\
    match cs_rooms (view w b) !! ns with
    | Some _ => cs_fired (view w2 b) = calls Ab ns m ++ cs_fired (view w b) /\ err = answer Ab ns m /\
                (err = None -> replies = [])
    | None => cs_fired (view w2 b) = cs_fired (view w b) /\ err = Some EBadNamespace /\ replies = []
    end.
Proof.
  intros G b Ab ta tb w n event body binary a ns m Hne Sb Qa Cb Hn Hev Hp Hin.
  destruct (l_C58_emit G ta w n event body binary Qa Hn Hev) as (w1 & ok & f & E1 & O1 & Q1 & Hok & V1 & _ & Hf).
  assert (ok = true) as -> by (apply Hok; right; exact Hin).
  destruct (only_calm _ _ _ _ _ O1 Hne Q1 Cb) as [C1 Vb].
  destruct (said_handled G b Ab tb w1 ns "" event body binary f Sb C1 Hp (Hf _ _ (app_mixed _ _ _ Sb)))
    as (w2 & err & replies & E2 & O2 & C2 & H).
  exists w1, f, w2, err, replies. rewrite Vb in H. split; [exact E1|]. split; [exact V1|]. split; [exact Vb|]. split; [exact E2|].
  pose proof (only_others _ _ _ O2) as Z2. fold a in Q1.
  split; [eapply others_view; eauto|]. split; [eapply (others_quiet G b a w1 w2 Z2); eauto; apply C2|]. split; [exact C2|exact H].
Qed.

(*@prop C58. The same for Room.Emit in a joined room. @*)
Lemma l_C58_room_delivered : forall G b Ab ta tb w n room event body,
  let a := n_conn n in let ns := n_name n in
  let m := arrived G b "" (said ns room event body false) in
  a <> b -> setting G b Ab -> quiet G w a -> calm G w b -> safe_name ns -> safe_name room -> safe_name event -> ~ protocol event ->
  (exists rs, cs_rooms (view w a) !! ns = Some rs /\ room ∈ rs) ->
  exists w1 f w2 err replies,
    exec ta (impl G (ARoomEmit n room event body)) w = XDone w1 true /\ view w1 a = push f (view w a) /\ view w1 b = view w b /\
    exec tb (HandlePayload G b (fst f) (snd f)) w1 = XDone w2 err /\ view w2 a = view w1 a /\
    quiet G w2 a /\ calm G w2 b /\
    cs_rooms (view w2 b) = cs_rooms (view w b) /\ cs_sent (view w2 b) = cs_sent (view w b) ++ replies /\ length replies <= 1 /\
    match cs_rooms (view w b) !! ns with
    | Some _ => cs_fired (view w2 b) = calls Ab ns m ++ cs_fired (view w b) /\ err = answer Ab ns m /\
                (err = None -> replies = [])
    | None => cs_fired (view w2 b) = cs_fired (view w b) /\ err = Some EBadNamespace /\ replies = []
    end.
Proof.
  intros G b Ab ta tb w n room event body a ns m Hne Sb Qa Cb Hn Hr Hev Hp (rs & Hin & Hj).
  destruct (l_C58_room_emit G ta w n room event body Qa Hn Hr Hev) as (w1 & ok & f & E1 & O1 & Q1 & Hok & V1 & _ & Hf).
  assert (ok = true) as -> by (apply Hok; right; eauto 6).
  destruct (only_calm _ _ _ _ _ O1 Hne Q1 Cb) as [C1 Vb].
  destruct (said_handled G b Ab tb w1 ns room event body false f Sb C1 Hp (Hf _ _ (app_mixed _ _ _ Sb)))
    as (w2 & err & replies & E2 & O2 & C2 & H).
  exists w1, f, w2, err, replies. rewrite Vb in H. split; [exact E1|]. split; [exact V1|]. split; [exact Vb|]. split; [exact E2|].
  pose proof (only_others _ _ _ O2) as Z2. fold a in Q1.
  split; [eapply others_view; eauto|]. split; [eapply (others_quiet G b a w1 w2 Z2); eauto; apply C2|]. split; [exact C2|exact H].
Qed.

(*@prop C58. NSConn.Ask between two ends, for an event of the application whose remote callback returns [e]: the callback runs
    once with exactly that event and body, a Reply gives exactly its bytes, any other error gives the error that its text
    resolves to. @*)
Lemma l_C58_ask : forall G b Aa Ab ta tb tr x n event body w rs e,
  let a := n_conn n in let ns := n_name n in
  let tok := genWait (g_client G a) (w_now w) in
  let m := said ns "" event body false in
  linked G a b Aa Ab w tok -> ctx_live w x -> safe_name ns -> safe_name event -> ~ protocol event ->
  is_Some (cs_rooms (view w a) !! ns) -> cs_rooms (view w b) !! ns = Some rs ->
  answer Ab ns (arrived G b tok m) = Some e ->
  exists w4 reply err, exchange G a b ta tb tr (impl G (ANSAsk (Some n) x event body)) w w4 (reply, err) /\ quiet G w4 a /\ quiet G w4 b /\
    err = seen_error (g_known G) (Some e) /\ m_body reply = seen_body (Some e) /\
    cs_fired (view w4 b) = calls Ab ns (arrived G b tok m) ++ cs_fired (view w b) /\
    cs_rooms (view w4 a) = cs_rooms (view w a) /\ cs_rooms (view w4 b) = cs_rooms (view w b).
Proof.
  intros G b Aa Ab ta tb tr x n event body w rs e a ns tok m L Hx Hn Hev Hp [rs' Hin] ER Hans.
  destruct (l_C49_ask G a b Aa Ab ta tb tr x m w rs e L Hx) as (w4 & reply & err & H1 & H2 & H3 & H4 & H5 & _ & H6 & H7 & H8).
  - split; try reflexivity; [exact Hn|apply safe_by_computation; reflexivity|exact Hev].
  - apply said_sendable. right. exists rs'. auto.
  - unfold protocol, connecting in Hp. change (m_event m) with event. cbn. intuition congruence.
  - exact ER.
  - left. reflexivity.
  - exact Hans.
  - exists w4, reply, err. split; [exact H1|]. auto 8.
Qed.

(*@ex
(** Two ends that have "chat" connected: 2 is the client, 1 the server.  The server's callback for "echo" returns a Reply. *)
Lemma ex_chat2 : exists n, in_namespace (s_w exM3) 2 "chat" n /\ n_conn n = 2 /\ n_name n = "chat" /\
  emits exG2 (Some n) "echo" "a;b" true = Emit exG2 (Some n) "echo" "a;b" true.
Proof. eexists. unfold in_namespace. split; [vm_compute; reflexivity|]. split; [reflexivity|]. split; reflexivity. Qed.
Example C58_example :
  reachable exG2 exM3 /\ (forall tok, linked exG2 2 1 exA2c exA2 (s_w exM3) tok) /\
  safe_name "chat" /\ safe_name "echo" /\ ~ protocol "echo" /\ safe_name "open" /\ ctx_live (s_w exM3) None /\
  (exists n, n_conn n = 2 /\ n_name n = "chat" /\ in_namespace (s_w exM3) 2 "chat" n) /\
  is_Some (cs_rooms (view (s_w exM3) 2) !! "chat") /\ cs_rooms (view (s_w exM3) 1) !! "chat" = Some {["open"; "jail"]} /\
  answer exA2 "chat" (arrived exG2 1 "" (said "chat" "" "echo" "a;b" true)) = Some (EReply "a;b") /\
  (exists n rs, n_conn n = 1 /\ cs_rooms (view (s_w exM3) 1) !! n_name n = Some rs /\ "open" ∈ rs).
Proof.
  split; [apply play_reachable|]. split; [apply ex_linked3|].
  do 2 (split; [apply E2EProofs.safe_by_computation; reflexivity|]). split; [unfold protocol, connecting; cbn; intuition discriminate|].
  split; [apply E2EProofs.safe_by_computation; reflexivity|]. split; [exact I|].
  split; [destruct ex_chat2 as (n & H1 & H2 & H3 & _); eauto|]. split; [eexists; vm_compute; reflexivity|].
  split; [decide_eq|]. split; [vm_compute; reflexivity|].
  exists (NsRef 1 "chat" 0), {["open"; "jail"]}. split; [reflexivity|]. split; [decide_eq|decide_eq].
Qed.
@*)

(** ** Queries *)
Lemma Namespace_reads t w c name : c_nsmu (conn_of w c) = rw0 -> is_Some (w_conns w !! c) ->
  exec t (Namespace c name) w = XDone w (c_nss (conn_of w c) !! name).
Proof.
  intros Q [k Hk]. assert (Hc : w_conns w !! c = Some (conn_of w c)) by (unfold conn_of; rewrite Hk; reflexivity). unfold Namespace.
  rewrite (exec_opb t (ONsRLock c) _ _ _ tt) by (cbn [ostep]; rewrite Q; reflexivity).
  rewrite (exec_opb t (OGetNs c name) _ _ _ _ eq_refl). rewrite conn_upd_eq.
  rewrite (exec_opb t (ONsRUnlock c) _ _ w tt); [reflexivity|].
  cbn [ostep]. rewrite conn_upd_eq. cbn. rewrite Q. cbn. rewrite Nat.eqb_refl. cbn.
  f_equal. rewrite upd_conn_twice. apply upd_conn_id; [exact Hc|].
  destruct (conn_of w c); cbn in *. unfold set; cbn. subst. cbn. rewrite Nat.eqb_refl. reflexivity.
Qed.

(*@prop C59. Namespace tells whether the namespace is connected, and the NSConn it gives is the one of that connection and
    that name. @*)
Lemma l_C59_namespace : forall G t w c name, quiet G w c ->
  exists r, exec t (impl G (ANamespace c name)) w = XDone w r /\
    (is_Some r <-> is_Some (cs_rooms (view w c) !! name)) /\
    forall n, r = Some n -> n_conn n = c /\ n_name n = name /\ in_namespace w c name n.
Proof.
  intros G t w c name Q. eexists. split; [eapply Namespace_exec, Q|]. split.
  - unfold view. cbn. rewrite lookup_fmap, fmap_is_Some. reflexivity.
  - intros n E. destruct Q as [_ Q]. destruct (q_ns_ _ _ _ _ _ Q _ _ E) as (H1 & H2 & _). auto.
Qed.

(*@prop C59. Room of a connected NSConn tells whether the room is joined; of a nil NSConn it is nil. @*)
Lemma l_C59_room : forall G t w c n room, quiet G w c -> in_namespace w c (n_name n) n ->
  exec t (impl G (ARoom None room)) w = XDone w None /\
  exists r rs, exec t (impl G (ARoom (Some n) room)) w = XDone w r /\
    cs_rooms (view w c) !! n_name n = Some rs /\
    (room ∈ rs -> r = Some (n, room)) /\ (room ∉ rs -> r = None).
Proof.
  intros G t w c n room [Hc Q] E. split; [reflexivity|].
  destruct (q_ns_ _ _ _ _ _ Q _ _ E) as (H1 & H2 & o & Eo & Ho & Hmu).
  assert (En : ns_of w n = o) by (unfold ns_of; rewrite Eo; reflexivity).
  exists (if bool_decide (room ∈ o_rooms o) then Some (n, room) else None), (o_rooms o). split.
  - cbn [impl]. unfold Room. rewrite hasRoom_exec; rewrite En; [reflexivity|exact Eo|exact Hmu].
  - split.
    { unfold view. cbn. rewrite lookup_fmap. unfold in_namespace in E. rewrite E. cbn. rewrite En. reflexivity. }
    split; intros H; [rewrite bool_decide_true|rewrite bool_decide_false]; auto.
Qed.

(*@prop C59. Rooms of a connected NSConn lists exactly the joined rooms, each once, in some order. @*)
Lemma l_C59_rooms : forall G t w c n, quiet G w c -> in_namespace w c (n_name n) n ->
  exists w' l rs, exec t (impl G (ARooms (Some n))) w = XDone w' l /\ untouched w w' /\
    cs_rooms (view w c) !! n_name n = Some rs /\ NoDup l /\
    forall n' room, (n', room) ∈ l <-> n' = n /\ room ∈ rs.
Proof.
  intros G t w c n [Hc Q] E.
  destruct (q_ns_ _ _ _ _ _ Q _ _ E) as (H1 & H2 & o & Eo & Ho & Hmu).
  assert (En : ns_of w n = o) by (unfold ns_of; rewrite Eo; reflexivity).
  exists (pop_seed w), (map (fun r => (n, r)) (permute (seed w) (elements (o_rooms o)))), (o_rooms o). split; [|split; [|split; [|split]]].
  - cbn [impl]. unfold Rooms.
    rewrite (exec_opb t (ORoomRLock n) _ _ _ tt) by (cbn [ostep]; rewrite En, Hmu; reflexivity).
    rewrite (exec_opb t (ORoomRange n) _ _ _ _ eq_refl).
    rewrite (exec_opb t (ORoomRUnlock n) _ _ (pop_seed w) tt).
    + rewrite ns_upd_eq. cbn. rewrite En. reflexivity.
    + cbn [ostep]. unfold pop_seed.
      change (ns_of (upd_ns n ?f w <| w_seeds ::= tl |>) n) with (ns_of (upd_ns n f w) n).
      rewrite ns_upd_eq. cbn. rewrite En, Hmu. cbn. rewrite Nat.eqb_refl. cbn. f_equal.
      transitivity (upd_ns n (fun k => k) w <| w_seeds ::= tl |>).
      2:{ rewrite upd_ns_id; [reflexivity|rewrite En; exact Eo|reflexivity]. }
      unfold upd_ns, ns_of. cbn. rewrite lookup_insert. cbn. rewrite Eo. cbn. unfold set. cbn. f_equal.
      rewrite insert_insert. f_equal. rewrite Hmu. cbn. rewrite Nat.eqb_refl. destruct o; cbn in *. subst. reflexivity.
  - split; reflexivity.
  - unfold view. cbn. rewrite lookup_fmap. unfold in_namespace in E. rewrite E. cbn. rewrite En. reflexivity.
  - apply NoDup_fmap_2; [intros a b [=]; auto|]. rewrite permute_perm. apply NoDup_elements.
  - intros n' room. rewrite elem_of_list_fmap. split.
    + intros (r & [= -> ->] & Hr). rewrite permute_perm, elem_of_elements in Hr. auto.
    + intros [-> Hr]. exists room. split; [reflexivity|]. rewrite permute_perm. apply elem_of_elements, Hr.
Qed.

Lemma collect_conns_spec t w l acc : exists M, exec t (collect_conns l acc) w = XDone w M /\
  (forall id c, M !! id = Some c -> c ∈ l /\ id_of w c = id \/ acc !! id = Some c) /\
  (forall c, c ∈ l -> is_Some (M !! id_of w c)) /\ (forall id, is_Some (acc !! id) -> is_Some (M !! id)).
Proof.
  revert acc; induction l as [|c l IH]; intros acc; cbn [collect_conns].
  - exists acc. split; [reflexivity|]. split; [auto|]. split; [intros c H; inversion H|auto].
  - rewrite (exec_opb t (OGetId c) _ _ _ _ eq_refl). destruct (IH (<[c_id (conn_of w c) := c]> acc)) as (M & E & H1 & H2 & H3).
    exists M. split; [exact E|]. split; [|split].
    + intros id c' H. destruct (H1 _ _ H) as [[Hl Hi]|Ha]; [left; split; [right; exact Hl|exact Hi]|].
      apply lookup_insert_Some in Ha as [[<- <-]|[_ Ha]]; [left; split; [left|reflexivity]|right; exact Ha].
    + intros c' H. inversion H; subst; [|auto]. apply H3. unfold id_of. rewrite lookup_insert. eauto.
    + intros id H. apply H3. destruct (decide (c_id (conn_of w c) = id)) as [->|Hn]; [rewrite lookup_insert; eauto|].
      rewrite lookup_insert_ne by exact Hn. exact H.
Qed.

Lemma collect_nss_spec t w name l acc : (forall c, c ∈ l -> c_nsmu (conn_of w c) = rw0 /\ is_Some (w_conns w !! c)) ->
  exists M, exec t (collect_nss l name acc) w = XDone w M /\
  (forall id n, M !! id = Some n -> (exists c, c ∈ l /\ id_of w c = id /\ in_namespace w c name n) \/ acc !! id = Some n) /\
  (forall c n, c ∈ l -> in_namespace w c name n -> is_Some (M !! id_of w c)) /\ (forall id, is_Some (acc !! id) -> is_Some (M !! id)).
Proof.
  revert acc; induction l as [|c l IH]; intros acc HL; cbn [collect_nss].
  - exists acc. split; [reflexivity|]. split; [auto|]. split; [intros c n H; inversion H|auto].
  - destruct (HL c ltac:(left)) as [Hmu Hs]. rewrite exec_bind, (Namespace_reads t w c name Hmu Hs).
    assert (HL' : forall c, c ∈ l -> c_nsmu (conn_of w c) = rw0 /\ is_Some (w_conns w !! c)) by (intros; apply HL; right; assumption).
    destruct (c_nss (conn_of w c) !! name) as [n|] eqn:EN.
    + cbn [xbind]. rewrite (exec_opb t (OGetId c) _ _ _ _ eq_refl). destruct (IH (<[c_id (conn_of w c) := n]> acc) HL') as (M & E & H1 & H2 & H3).
      exists M. split; [exact E|]. split; [|split].
      * intros id n' H. destruct (H1 _ _ H) as [(c' & Hl & Hi)|Ha]; [left; exists c'; split; [right; exact Hl|exact Hi]|].
        apply lookup_insert_Some in Ha as [[<- <-]|[_ Ha]]; [left; exists c; split; [left|split; [reflexivity|exact EN]]|right; exact Ha].
      * intros c' n' H Hn. inversion H; subst; [|eauto]. apply H3. unfold id_of. rewrite lookup_insert. eauto.
      * intros id H. apply H3. destruct (decide (c_id (conn_of w c) = id)) as [->|Hn]; [rewrite lookup_insert; eauto|].
        rewrite lookup_insert_ne by exact Hn. exact H.
    + cbn [xbind]. destruct (IH acc HL') as (M & E & H1 & H2 & H3). exists M. split; [exact E|]. split; [|split; [|exact H3]].
      * intros id n' H. destruct (H1 _ _ H) as [(c' & Hl & Hi)|Ha]; [left; exists c'; split; [right; exact Hl|exact Hi]|right; exact Ha].
      * intros c' n' H Hn. inversion H; subst; [|eauto]. unfold in_namespace in Hn. congruence.
Qed.

(*@prop C59. GetConnections: under each ID there is a registered connection with that ID, and the ID of each registered
    connection is there.  So if the IDs are distinct, the map contains exactly the registered connections. @*)
Lemma l_C59_connections_partial : forall G t w,
  exists w' M, exec t (impl G AGetConnections) w = XDone w' M /\ untouched w w' /\
    (forall id c, M !! id = Some c -> registered w c /\ id_of w c = id) /\
    (forall c, registered w c -> is_Some (M !! id_of w c)) /\
    ((forall c1 c2, registered w c1 -> registered w c2 -> id_of w c1 = id_of w c2 -> c1 = c2) ->
     forall id c, M !! id = Some c <-> registered w c /\ id_of w c = id).
Proof.
  intros G t w. set (l := permute (seed w) (elements (s_conns (w_srv w)))).
  assert (Hl : forall c, c ∈ l <-> registered w c) by (intros c; unfold l, registered; rewrite permute_perm, elem_of_elements; reflexivity).
  destruct (collect_conns_spec t (pop_seed w) l ∅) as (M & E & H1 & H2 & _).
  exists (pop_seed w), M. split; [cbn [impl]; rewrite (exec_opb t OSRange _ _ _ _ eq_refl); exact E|]. split; [split; reflexivity|].
  assert (A1 : forall id c, M !! id = Some c -> registered w c /\ id_of w c = id).
  { intros id c H. destruct (H1 _ _ H) as [[Hc Hi]|Ha]; [|rewrite lookup_empty in Ha; discriminate]. split; [apply Hl, Hc|exact Hi]. }
  assert (A2 : forall c, registered w c -> is_Some (M !! id_of w c)) by (intros c Hc; apply (H2 c), Hl, Hc).
  split; [exact A1|]. split; [exact A2|]. intros Hd id c. split; [apply A1|]. intros [Hc <-].
  destruct (A2 c Hc) as [c' Hc']. destruct (A1 _ _ Hc') as [Hr Hi]. rewrite (Hd _ _ Hr Hc Hi) in Hc'. exact Hc'.
Qed.

(*@prop C59. GetConnectionsByNamespace, while no goroutine holds the namespaces of a registered connection: likewise for the
    registered connections that have the namespace connected, with their NSConn values. @*)
Lemma l_C59_by_namespace_partial : forall G t w name,
  (forall c, registered w c -> c_nsmu (conn_of w c) = rw0 /\ is_Some (w_conns w !! c)) ->
  exists w' M, exec t (impl G (AGetConnectionsByNamespace name)) w = XDone w' M /\ untouched w w' /\
    (forall id n, M !! id = Some n -> exists c, registered w c /\ id_of w c = id /\ in_namespace w c name n) /\
    (forall c n, registered w c -> in_namespace w c name n -> is_Some (M !! id_of w c)) /\
    ((forall c1 c2, registered w c1 -> registered w c2 -> id_of w c1 = id_of w c2 -> c1 = c2) ->
     forall id n, M !! id = Some n <-> exists c, registered w c /\ id_of w c = id /\ in_namespace w c name n).
Proof.
  intros G t w name HL. set (l := permute (seed w) (elements (s_conns (w_srv w)))).
  assert (Hl : forall c, c ∈ l <-> registered w c) by (intros c; unfold l, registered; rewrite permute_perm, elem_of_elements; reflexivity).
  destruct (collect_nss_spec t (pop_seed w) name l ∅) as (M & E & H1 & H2 & _).
  { intros c Hc. apply Hl in Hc. destruct (HL c Hc). auto. }
  exists (pop_seed w), M. split; [cbn [impl]; rewrite (exec_opb t OSRange _ _ _ _ eq_refl); exact E|]. split; [split; reflexivity|].
  assert (A1 : forall id n, M !! id = Some n -> exists c, registered w c /\ id_of w c = id /\ in_namespace w c name n).
  { intros id n H. destruct (H1 _ _ H) as [(c & Hc & Hi & Hn)|Ha]; [|rewrite lookup_empty in Ha; discriminate].
    exists c. split; [apply Hl, Hc|]. split; [exact Hi|exact Hn]. }
  assert (A2 : forall c n, registered w c -> in_namespace w c name n -> is_Some (M !! id_of w c)) by (intros c n Hc Hn; apply (H2 c n); [apply Hl, Hc|exact Hn]).
  split; [exact A1|]. split; [exact A2|]. intros Hd id n. split; [apply A1|]. intros (c & Hc & <- & Hn).
  destruct (A2 c n Hc Hn) as [n' Hn']. destruct (A1 _ _ Hn') as (c' & Hr & Hi & Hn2). rewrite (Hd _ _ Hr Hc Hi) in Hn2.
  unfold in_namespace in Hn, Hn2. rewrite Hn in Hn2. injection Hn2 as ->. exact Hn'.
Qed.

(*@prop C59, violated when two registered connections have the same ID: GetConnections lacks one of them. @*)
Lemma l_C59_refuted : forall G t w c1 c2,
  registered w c1 -> registered w c2 -> c1 <> c2 -> id_of w c1 = id_of w c2 ->
  exists w' M c, exec t (impl G AGetConnections) w = XDone w' M /\ (c = c1 \/ c = c2) /\ forall id, M !! id <> Some c.
Proof.
  intros G t w c1 c2 R1 R2 Hne Hid.
  destruct (l_C59_connections_partial G t w) as (w' & M & E & _ & H1 & _ & _).
  exists w', M, (if decide (M !! id_of w c1 = Some c1) then c2 else c1). split; [exact E|].
  destruct (decide (M !! id_of w c1 = Some c1)) as [Hd|Hd]; (split; [auto|]); intros id H; destruct (H1 _ _ H) as [_ <-]; congruence.
Qed.

(*@ex
(** Connection 1 of exM is in "chat" with two rooms.  castS has three registered connections, two of which have the ID ann. *)
Example C59_example :
  quiet exG (s_w exM) 1 /\ (exists n, n_name n = "chat" /\ in_namespace (s_w exM) 1 "chat" n) /\
  cs_rooms (view (s_w exM) 1) = {["chat" := {["open"; "jail"]}]} /\
  (forall c, registered (s_w exM) c -> c = 1) /\ registered (s_w exM) 1 /\
  reachable (castG true) castS /\ registered (s_w castS) 1 /\ registered (s_w castS) 2 /\ registered (s_w castS) 3 /\
  id_of (s_w castS) 1 = "ann" /\ id_of (s_w castS) 2 = "bob" /\ id_of (s_w castS) 3 = "ann" /\
  (forall c, registered (s_w castS) c -> c_nsmu (conn_of (s_w castS) c) = rw0 /\ is_Some (w_conns (s_w castS) !! c)).
Proof.
  split; [apply ex_calm; auto|]. split; [eexists; split; [|vm_compute; reflexivity]; reflexivity|]. split; [decide_eq|].
  assert (E : s_conns (w_srv (s_w exM)) = {[1]}) by decide_eq.
  assert (E' : s_conns (w_srv (s_w castS)) = {[1; 2; 3]}) by decide_eq.
  unfold registered. rewrite E, E'. split; [intros c; rewrite elem_of_singleton; auto|]. split; [apply elem_of_singleton; auto|].
  split; [apply cast_reachable|]. do 3 (split; [set_solver|]). do 3 (split; [vm_compute; reflexivity|]).
  intros c. rewrite !elem_of_union, !elem_of_singleton. intros [[->| ->]| ->]; (split; [vm_compute; reflexivity|eexists; vm_compute; reflexivity]).
Qed.
@*)

(** ** WaitConnect *)
(*@prop C60. WaitConnect.  A context that is over: its error.  The namespace is connected (now or at an earlier look) and the
    handshake was acknowledged: its NSConn.  Otherwise it looks again, later, and remembers the NSConn it found; it never gives up by itself and
    changes nothing. @*)
Lemma l_C60_wait_connect : forall G t w c x ns found, quiet G w c ->
  let n := match found with Some n => Some n | None => c_nss (conn_of w c) !! ns end in
  match ended w x, n, c_acked (conn_of w c) with
  | Some e, _, _ => exec t (impl G (AWaitConnect c x ns found)) w = XDone w (None, Some e)
  | None, Some n, true => exec t (impl G (AWaitConnect c x ns found)) w = XDone w (Some n, None)
  | None, _, _ => exec t (impl G (AWaitConnect c x ns found)) w = XCall w (AWaitConnect c x ns n) Ret
  end.
Proof.
  intros G t w c x ns found Q n. cbn [impl]. unfold WaitConnect.
  rewrite (exec_opb t (OCtxErr x) _ _ _ _ eq_refl). fold (ended w x). destruct (ended w x) as [e|]; [reflexivity|].
  assert (E : exec t (match found with Some n => Ret (Some n) | None => Namespace c ns end) w = XDone w n).
  { unfold n. destruct found; [reflexivity|apply (Namespace_exec G), Q]. }
  rewrite exec_bind, E. cbn [xbind]. destruct n as [n'|]; [|reflexivity].
  rewrite (exec_opb t (OIsAcked c) _ _ _ _ eq_refl). destruct (c_acked (conn_of w c)); reflexivity.
Qed.

(*@ex
(** Connection 1 of exM: acknowledged and in "chat", not in "vip". *)
Example C60_example :
  quiet exG (s_w exM) 1 /\ c_acked (conn_of (s_w exM) 1) = true /\ ended (s_w exM) None = None /\
  is_Some (c_nss (conn_of (s_w exM) 1) !! "chat") /\ c_nss (conn_of (s_w exM) 1) !! "vip" = None.
Proof.
  split; [apply ex_calm; auto|]. split; [vm_compute; reflexivity|]. split; [reflexivity|]. split; [eexists; vm_compute; reflexivity|].
  vm_compute; reflexivity.
Qed.
@*)
