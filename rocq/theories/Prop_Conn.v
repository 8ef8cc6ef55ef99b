(** * Prop_Conn.v : property theorems (generated by tools/genprops.py from ConnProofs.v).
    Every proof is the lemma of the same name in ConnProofs.v. *)
From Coq Require Import ZArith.
From stdpp Require Import gmap strings list relations.
From RecordUpdate Require Import RecordUpdate.
From Verif Require Import Go Errors Message World Lang Code Sem Spec_Conn Spec_View Spec_Wire CodecProofs Examples.
From Verif Require Import ConnProofs.

(** C19, C12. Whatever frame an undisturbed connection receives (unless it is the reply of a pending Ask),
    the code does exactly what the reference machine of Spec_Conn.v does, returns the same
    error, and touches nothing but this connection.  [order] is the order in which rooms are left. *)
Theorem C19_payload_refines_machine : forall G c A t w typ b,
  setting G c A -> calm G w c -> unasked G w c (received G c typ b) ->
  let m := received G c typ b in
  exists order w',
    (forall rs, cs_rooms (view w c) !! m_namespace m = Some rs -> Permutation order (elements rs)) /\
    exec t (HandlePayload G c typ b) w = XDone w' (snd (handle (role_of G c w) A order m (view w c))) /\
    view w' c = fst (handle (role_of G c w) A order m (view w c)) /\ calm G w' c /\ only c w w'.
Proof. exact l_C19_payload_refines_machine. Qed.
Print Assumptions C19_payload_refines_machine.

(** The hypotheses hold in a reachable state, for every frame; this one is answered. *)
Example C19_example : reachable exG exM /\ setting exG 1 exA /\ calm exG (s_w exM) 1 /\
  (forall typ b, unasked exG (s_w exM) 1 (received exG 1 typ b)) /\
  (let m := received exG 1 TextMessage "$8;chat;open;fail;0;0;hello" in
   cs_sent (fst (handle (role_of exG 1 (s_w exM)) exA [] m (view (s_w exM) 1))) =
   cs_sent (view (s_w exM) 1) ++ [(TextMessage, "$8;chat;open;fail;1;0;bad room")]).
Proof.
  split; [apply play_reachable|]. split; [apply ex_setting|]. split; [apply ex_calm; auto|].
  split; [intros; apply ex_unasked; auto|]. vm_compute. reflexivity.
Qed.

(** C15. A connect request of the peer.  [v] is the verdict: already connected, or the namespace is
    declared and its callback agrees.  Exactly one answer with the verdict is written; the
    namespace is connected afterwards exactly if it was before or the verdict is positive; a refused
    request changes no membership; callbacks run only if the namespace was not connected. *)
Theorem C15_connect_request : forall G c A t w typ b,
  let m := received G c typ b in
  let ns := m_namespace m in
  setting G c A -> calm G w c -> unasked G w c m ->
  m_event m = OnNamespaceConnect -> m_wait m <> "" -> m_isNoOp m = false ->
  let s := view w c in
  let v := match cs_rooms s !! ns, A !! ns with
           | Some _, _ => None
           | None, None => Some EBadNamespace
           | None, Some _ => answer A ns m
           end in
  exists w' f,
    exec t (HandlePayload G c typ b) w = XDone w' None /\ calm G w' c /\ only c w w' /\
    let s' := view w' c in
    cs_sent s' = cs_sent s ++ [f] /\ (good_token (m_wait m) -> answers f (m_wait m) v) /\
    cs_rooms s' = match cs_rooms s !! ns, v with None, None => <[ns := ∅]> (cs_rooms s) | _, _ => cs_rooms s end /\
    cs_subs s' = match cs_rooms s !! ns, A !! ns, v, g_exch G with
                 | None, Some _, None, Some _ => if g_client G c then cs_subs s else (true, ns) :: cs_subs s
                 | _, _, _, _ => cs_subs s
                 end /\
    cs_fired s' = match cs_rooms s !! ns, A !! ns, v with
                  | None, Some _, None => calls A ns (set_event OnNamespaceConnected m) ++ calls A ns m ++ cs_fired s
                  | None, Some _, Some _ => calls A ns m ++ cs_fired s
                  | _, _, _ => cs_fired s
                  end.
Proof. exact l_C15_connect_request. Qed.
Print Assumptions C15_connect_request.

(** A refused request for "vip" and a repeated one for "chat". *)
Example C15_example :
  let m := received exG 1 TextMessage "$9;vip;;_OnNamespaceConnect;0;0;" in
  let m2 := received exG 1 TextMessage "$9;chat;;_OnNamespaceConnect;0;0;" in
  setting exG 1 exA /\ calm exG (s_w exM) 1 /\ unasked exG (s_w exM) 1 m /\
  m_event m = OnNamespaceConnect /\ m_wait m <> "" /\ m_isNoOp m = false /\ good_token (m_wait m) /\
  cs_rooms (view (s_w exM) 1) !! "vip" = None /\ answer exA "vip" m = Some (EUser 4 "members only") /\
  m_event m2 = OnNamespaceConnect /\ cs_rooms (view (s_w exM) 1) !! "chat" = Some {["open"; "jail"]}.
Proof.
  cbv zeta. split; [apply ex_setting|]. split; [apply ex_calm; auto|]. split; [apply ex_unasked; auto|].
  split; [reflexivity|]. split; [discriminate|]. split; [reflexivity|]. split; [apply (genWait_good true 9)|].
  split; [decide_eq|]. split; [reflexivity|]. split; [reflexivity|]. decide_eq.
Qed.
(** An accepted one, on a client-side connection. *)
Example C15_example_accepted :
  let m := received exG 2 TextMessage "9;chat;;_OnNamespaceConnect;0;0;" in
  setting exG 2 exA /\ calm exG (s_w exM) 2 /\ unasked exG (s_w exM) 2 m /\ g_client exG 2 = true /\
  m_event m = OnNamespaceConnect /\ m_wait m = "9" /\ m_isNoOp m = false /\
  cs_rooms (view (s_w exM) 2) = ∅ /\ answer exA "chat" m = None /\
  calls exA "chat" (set_event OnNamespaceConnected m) <> [].
Proof.
  cbv zeta. split; [apply ex_setting|]. split; [apply ex_calm; auto|]. split; [apply ex_unasked; auto|].
  do 4 (split; [reflexivity|]). split; [decide_eq|]. split; [reflexivity|]. vm_compute. discriminate.
Qed.

(** C16. A disconnect request of the peer.  On the server the callback decides, a client always agrees;
    not being connected is fine too.  On success the namespace with all its rooms is gone and every room
    got its forced leave and left callbacks, in some order of the rooms; on refusal no membership changes. *)
Theorem C16_disconnect_request : forall G c A t w typ b,
  let m := received G c typ b in
  let ns := m_namespace m in
  setting G c A -> calm G w c -> unasked G w c m ->
  m_event m = OnNamespaceDisconnect -> m_wait m <> "" -> m_isNoOp m = false ->
  let s := view w c in
  let v := match cs_rooms s !! ns with
           | None => None
           | Some _ => if g_client G c then None else answer A ns m
           end in
  exists w' f order,
    exec t (HandlePayload G c typ b) w = XDone w' None /\ calm G w' c /\ only c w w' /\
    let s' := view w' c in
    cs_sent s' = cs_sent s ++ [f] /\ (good_token (m_wait m) -> answers f (m_wait m) v) /\
    cs_rooms s' = match v with None => delete ns (cs_rooms s) | Some _ => cs_rooms s end /\
    (forall rs, cs_rooms s !! ns = Some rs -> Permutation order (elements rs)) /\
    cs_subs s' = match cs_rooms s !! ns, v, g_exch G with
                 | Some _, None, Some _ => if g_client G c then cs_subs s else (false, ns) :: cs_subs s
                 | _, _, _ => cs_subs s
                 end /\
    cs_fired s' = match cs_rooms s !! ns, v with
                  | None, _ => cs_fired s
                  | Some _, Some _ => calls A ns m ++ cs_fired s
                  | Some _, None =>
                      if g_client G c then calls A ns m ++ leaves_calls A ns false order ++ cs_fired s
                      else leaves_calls A ns false order ++ calls A ns m ++ cs_fired s
                  end.
Proof. exact l_C16_disconnect_request. Qed.
Print Assumptions C16_disconnect_request.

(** A request that the callback refuses and one that it grants, with two rooms to leave. *)
Example C16_example :
  let m := received exG 1 TextMessage "$9;chat;;_OnNamespaceDisconnect;0;0;stay" in
  let m2 := received exG 1 TextMessage "$9;chat;;_OnNamespaceDisconnect;0;0;" in
  setting exG 1 exA /\ calm exG (s_w exM) 1 /\ unasked exG (s_w exM) 1 m /\ unasked exG (s_w exM) 1 m2 /\
  m_event m = OnNamespaceDisconnect /\ m_wait m <> "" /\ m_isNoOp m = false /\
  answer exA "chat" m = Some (EUser 3 "stay") /\
  m_event m2 = OnNamespaceDisconnect /\ answer exA "chat" m2 = None /\
  cs_rooms (view (s_w exM) 1) !! "chat" = Some {["open"; "jail"]} /\
  length (leaves_calls exA "chat" false ["open"; "jail"]) = 4.
Proof.
  cbv zeta. split; [apply ex_setting|]. split; [apply ex_calm; auto|]. split; [apply ex_unasked; auto|]. split; [apply ex_unasked; auto|].
  split; [reflexivity|]. split; [discriminate|]. do 4 (split; [reflexivity|]). split; [decide_eq|]. reflexivity.
Qed.

(** C17. A request of the peer to join a room of a connected namespace. *)
Theorem C17_join_request : forall G c A t w typ b rs,
  let m := received G c typ b in
  let ns := m_namespace m in
  setting G c A -> calm G w c -> unasked G w c m ->
  m_event m = OnRoomJoin -> m_wait m <> "" -> m_isNoOp m = false ->
  let s := view w c in
  cs_rooms s !! ns = Some rs ->
  let v := if bool_decide (m_room m ∈ rs) then None else answer A ns m in
  exists w' f,
    exec t (HandlePayload G c typ b) w = XDone w' None /\ calm G w' c /\ only c w w' /\
    let s' := view w' c in
    cs_sent s' = cs_sent s ++ [f] /\ (good_token (m_wait m) -> answers f (m_wait m) v) /\
    cs_rooms s' = match v with None => <[ns := {[m_room m]} ∪ rs]> (cs_rooms s) | Some _ => cs_rooms s end /\
    cs_subs s' = cs_subs s /\
    cs_fired s' = if bool_decide (m_room m ∈ rs) then cs_fired s
                  else match v with
                       | Some _ => calls A ns m ++ cs_fired s
                       | None => calls A ns (set_event OnRoomJoined m) ++ calls A ns m ++ cs_fired s
                       end.
Proof. exact l_C17_join_request. Qed.
Print Assumptions C17_join_request.

Example C17_join_example :
  let m := received exG 1 TextMessage "$9;chat;closed;_OnRoomJoin;0;0;" in
  let m2 := received exG 1 TextMessage "$9;chat;new room;_OnRoomJoin;0;0;" in
  setting exG 1 exA /\ calm exG (s_w exM) 1 /\ unasked exG (s_w exM) 1 m /\ unasked exG (s_w exM) 1 m2 /\
  m_event m = OnRoomJoin /\ m_wait m <> "" /\ m_isNoOp m = false /\
  answer exA "chat" m = Some (EUser 1 "closed room") /\
  m_event m2 = OnRoomJoin /\ answer exA "chat" m2 = None /\
  cs_rooms (view (s_w exM) 1) !! "chat" = Some {["open"; "jail"]}.
Proof.
  cbv zeta. split; [apply ex_setting|]. split; [apply ex_calm; auto|]. split; [apply ex_unasked; auto|]. split; [apply ex_unasked; auto|].
  split; [reflexivity|]. split; [discriminate|]. do 4 (split; [reflexivity|]). decide_eq.
Qed.

(** C17. A request of the peer to leave a room of a connected namespace; a client always agrees. *)
Theorem C17_leave_request : forall G c A t w typ b rs,
  let m := received G c typ b in
  let ns := m_namespace m in
  setting G c A -> calm G w c -> unasked G w c m ->
  m_event m = OnRoomLeave -> m_wait m <> "" -> m_isNoOp m = false ->
  let s := view w c in
  cs_rooms s !! ns = Some rs ->
  let v := if bool_decide (m_room m ∈ rs) then if g_client G c then None else answer A ns m else None in
  exists w' f,
    exec t (HandlePayload G c typ b) w = XDone w' None /\ calm G w' c /\ only c w w' /\
    let s' := view w' c in
    cs_sent s' = cs_sent s ++ [f] /\ (good_token (m_wait m) -> answers f (m_wait m) v) /\
    cs_rooms s' = match v with None => <[ns := rs ∖ {[m_room m]}]> (cs_rooms s) | Some _ => cs_rooms s end /\
    cs_subs s' = cs_subs s /\
    cs_fired s' = if bool_decide (m_room m ∈ rs)
                  then match v with
                       | Some _ => calls A ns m ++ cs_fired s
                       | None => calls A ns (set_event OnRoomLeft m) ++ calls A ns m ++ cs_fired s
                       end
                  else cs_fired s.
Proof. exact l_C17_leave_request. Qed.
Print Assumptions C17_leave_request.

Example C17_leave_example :
  let m := received exG 1 TextMessage "$9;chat;jail;_OnRoomLeave;0;0;" in
  let m2 := received exG 1 TextMessage "$9;chat;open;_OnRoomLeave;0;0;" in
  setting exG 1 exA /\ calm exG (s_w exM) 1 /\ unasked exG (s_w exM) 1 m /\ unasked exG (s_w exM) 1 m2 /\
  m_event m = OnRoomLeave /\ m_wait m <> "" /\ m_isNoOp m = false /\
  answer exA "chat" m = Some (EUser 2 "no way out") /\
  m_event m2 = OnRoomLeave /\ answer exA "chat" m2 = None /\
  cs_rooms (view (s_w exM) 1) !! "chat" = Some {["open"; "jail"]}.
Proof.
  cbv zeta. split; [apply ex_setting|]. split; [apply ex_calm; auto|]. split; [apply ex_unasked; auto|]. split; [apply ex_unasked; auto|].
  split; [reflexivity|]. split; [discriminate|]. do 4 (split; [reflexivity|]). decide_eq.
Qed.

(** C20 (violated). No message for a namespace that is not connected, other than a connect or disconnect
    request, is ever answered: nothing is written, no callback runs, nothing changes.  So an Ask, a join or a
    leave request for it gets no answer at all. *)
Theorem C20_unconnected_gets_answer_refuted : forall G c A t w typ b,
  let m := received G c typ b in
  setting G c A -> calm G w c -> unasked G w c m ->
  m_event m <> OnNamespaceConnect -> m_event m <> OnNamespaceDisconnect ->
  cs_rooms (view w c) !! m_namespace m = None ->
  exists w' err, exec t (HandlePayload G c typ b) w = XDone w' err /\ view w' c = view w c /\ only c w w'.
Proof. exact l_C20_unconnected_gets_answer_refuted. Qed.
Print Assumptions C20_unconnected_gets_answer_refuted.

(** An Ask for the declared namespace "vip", to which connection 1 is not connected. *)
Example C20_example :
  let m := received exG 1 TextMessage "$9;vip;;question;0;0;hello" in
  setting exG 1 exA /\ calm exG (s_w exM) 1 /\ unasked exG (s_w exM) 1 m /\
  m_event m = "question" /\ m_wait m = "$9" /\ cs_rooms (view (s_w exM) 1) !! m_namespace m = None.
Proof.
  cbv zeta. split; [apply ex_setting|]. split; [apply ex_calm; auto|]. split; [apply ex_unasked; auto|].
  do 2 (split; [reflexivity|]). decide_eq.
Qed.

(** C18. Write on an open connection whose handshake is over: it returns [true] and appends exactly one
    frame, the serialized message without explicit sender, if the message is sendable; otherwise it returns
    [false] and nothing changes.  (For an error whose text cannot be computed see C07.) *)
Theorem C18_write : forall G c t w m,
  quiet G w c ->
  match m_err m with None => True | Some e => exists text, err_text e = Ok text end ->
  let self := if g_client G c then c_id (conn_of w c) else serverConnID G c in
  let s := view w c in
  exists w' ok b,
    serializeMessage (set_fromExplicit "" m) = Ok b /\
    exec t (Write G c m) w = XDone w' ok /\ only c w w' /\ quiet G w' c /\
    (ok = true <-> sendable self (cs_rooms s) m) /\
    view w' c = if ok then s <| cs_sent ::= fun l => l ++ [(if m_setBinary m then BinaryMessage else TextMessage, b)] |> else s.
Proof. exact l_C18_write. Qed.
Print Assumptions C18_write.

(** Some messages that pass and some that do not. *)
Example C18_example :
  let msg ns room ev := set_event ev (set_room room (set_namespace ns no_message)) in
  let M := cs_rooms (view (s_w exM) 1) in
  quiet exG (s_w exM) 1 /\
  sendable "x" M (msg "chat" "open" "hi") /\ ~ sendable "x" M (msg "chat" "other" "hi") /\
  sendable "x" M (msg "chat" "other" OnRoomLeft) /\ ~ sendable "x" M (msg "vip" "" "hi") /\
  sendable "x" M (msg "vip" "" OnNamespaceConnect) /\ ~ sendable "x" M (set_fromExplicit "x" (msg "chat" "" "hi")).
Proof.
  cbv zeta. split; [apply ex_calm; auto|].
  assert (HM : cs_rooms (view (s_w exM) 1) = {["chat" := {["open"; "jail"]}]}) by (decide_eq).
  rewrite HM. unfold sendable. cbn.
  split. { split; [|auto]. right; right. exists {["open"; "jail"]}. split; [reflexivity|]. do 3 right. decide_eq. }
  split. { intros [[H|[H|(rs & H & Hr)]] _]; [discriminate|discriminate|].
           apply lookup_singleton_Some in H as [_ <-].
           assert (Hn : "other" ∉ ({["open"; "jail"]} : gset string)) by decide_eq.
           destruct Hr as [H|[H|[H|H]]]; solve [discriminate|exact (Hn H)]. }
  split. { split; [|auto]. right; right. exists {["open"; "jail"]}. auto. }
  split. { intros [[H|[H|(rs & H & Hr)]] _]; [discriminate|discriminate|].
           apply lookup_singleton_Some in H as [H _]. congruence. }
  split; [auto|]. intros [_ [H|H]]; [discriminate|auto].
Qed.

(** C18. Write on a closed connection: [false], nothing changes. *)
Theorem C18_write_closed : forall G c t w m, c_closed (conn_of w c) = true -> exec t (Write G c m) w = XDone w false.
Proof. exact l_C18_write_closed. Qed.
Print Assumptions C18_write_closed.

Example C18_closed_example :
  c_closed (conn_of (s_w (play exG (handshake1 ++ [Act1 (Env (EReadEnd 1 EEOF)); Go 3]) (init exG))) 1) = true.
Proof. vm_compute. reflexivity. Qed.

(** C18, C29. Write on a server side connection that was not accepted yet accepts it: it opens the readiness gate
    with success and then does what it does on an accepted connection. *)
Theorem C18_write_accepts : forall G c t w m,
  g_client G c = false -> c_closed (conn_of w c) = false -> w_ready (c_wait (conn_of w c)) = false ->
  w_chclosed (c_wait (conn_of w c)) = false ->
  exec t (Write G c m) w = exec t (Write G c m)
    (upd_conn c (fun k => k <| c_wait := Waiter false true None (w_locked (c_wait k)) |>) w).
Proof. exact l_C18_write_accepts. Qed.
Print Assumptions C18_write_accepts.

(** Right after the connection was made, before OnConnect returned. *)
Example C18_accepts_example :
  let w := s_w (play exG ([Go 0; Act1 (Env (EGo (TUpgrade 1)))] ++ repeat (Act1 (Step 1)) 3) (init exG)) in
  g_client exG 1 = false /\ valid_conn w 1 = true /\ c_closed (conn_of w 1) = false /\ w_ready (c_wait (conn_of w 1)) = false /\
  w_chclosed (c_wait (conn_of w 1)) = false.
Proof. vm_compute. auto. Qed.

(** C19. Processing any list of frames (none of them the reply of a pending Ask) makes the connected namespaces and
    joined rooms what the membership specification says, and leaves the connection ready for more. *)
Theorem C19_membership_of_sequence : forall G c A t frames w,
  setting G c A -> calm G w c ->
  (forall typ b, (typ, b) ∈ frames -> unasked G w c (received G c typ b)) ->
  exists w',
    exec t (for_all frames (fun f => bind (HandlePayload G c (fst f) (snd f)) (fun _ => Ret tt))) w = XDone w' tt /\
    calm G w' c /\ only c w w' /\
    cs_rooms (view w' c) =
      fold_left (fun M f => member_step (g_client G c) A (received G c (fst f) (snd f)) M) frames (cs_rooms (view w c)).
Proof. exact l_C19_membership_of_sequence. Qed.
Print Assumptions C19_membership_of_sequence.

(** Connect, join, leave, disconnect and rubbish in one list. *)
Example C19_sequence_example :
  let frames := [(TextMessage, "$1;chat;;_OnNamespaceConnect;0;0;"); (TextMessage, "$2;chat;r;_OnRoomJoin;0;0;");
                 (TextMessage, "$3;chat;closed;_OnRoomJoin;0;0;"); (BinaryMessage, ";;;"); (TextMessage, "$4;vip;;_OnNamespaceConnect;0;0;");
                 (TextMessage, "$5;chat;open;_OnRoomLeave;0;0;"); (TextMessage, "$5;chat;jail;_OnRoomLeave;0;0;")] in
  setting exG 1 exA /\ calm exG (s_w exM) 1 /\
  (forall typ b, (typ, b) ∈ frames -> unasked exG (s_w exM) 1 (received exG 1 typ b)) /\
  fold_left (fun M f => member_step (g_client exG 1) exA (received exG 1 (fst f) (snd f)) M) frames
    (cs_rooms (view (s_w exM) 1)) = {["chat" := {["jail"; "r"]}]}.
Proof.
  cbv zeta. split; [apply ex_setting|]. split; [apply ex_calm; auto|]. split; [intros; apply ex_unasked; auto|].
  decide_eq.
Qed.
