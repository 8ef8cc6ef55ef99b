(** * ConnProofs.v : C15-C20, what one connection does with incoming messages. *)
From Coq Require Import ZArith.
From stdpp Require Import gmap strings list relations.
From RecordUpdate Require Import RecordUpdate.
From Verif Require Import Go Errors Message World Lang Code Sem ExecProofs Spec_Conn Spec_View Spec_Wire CodecProofs SeqProofs.

(** ** From the code to the reference machine *)
Section conn.
Context (G : cfg) (c : cid) (A : app) (S : setting G c A).

Lemma handleMessage_runs t w m : calm G w c -> unasked G w c m ->
  exists order w',
    (forall rs, cs_rooms (view w c) !! m_namespace m = Some rs -> Permutation order (elements rs)) /\
    exec t (handleMessage G c m) w = XDone w' (snd (handle (role_of G c w) A order m (view w c))) /\
    view w' c = fst (handle (role_of G c w) A order m (view w c)) /\ calm G w' c /\ only c w w'.
Proof.
  intros [Q I] U. unfold handleMessage.
  destruct (m_isInvalid m) eqn:Hval.
  { exists (match cs_rooms (view w c) !! m_namespace m with Some rs => elements rs | None => [] end), w.
    unfold handle. rewrite Hval. split; [intros rs ->; reflexivity|].
    split; [reflexivity|]. split; [reflexivity|]. split; [split; assumption|apply only_refl]. }
  rewrite (app_mixed _ _ _ S), andb_false_r.
  pose proof (At G c w (view w c) (c_nss (conn_of w c)) Q eq_refl eq_refl) as Hat.
  destruct (handle_event_runs G c A (app_of _ _ _ S) (app_text _ _ _ S) t w _ _ m Hat I Hval)
    as (order & nm' & Hperm & w' & E & H' & O').
  exists order, w'. split; [exact Hperm|].
  split; [|split; [apply H'|split; [split; [apply H'|apply (y_idle _ _ _ O'), I]|exact O']]].
  rewrite <- E. change (IsClient G c) with (g_client G c). destruct U as [->|[[Hp1 Hp2] Hx]]; [reflexivity|].
  assert (Hre : exec t (handle_reply_or_event G c m) w = exec t (handle_event G c m) w).
  { unfold handle_reply_or_event. rewrite (exec_opb t (OWaitGet c (m_wait m)) _ _ _ _ eq_refl). rewrite Hp1. reflexivity. }
  destruct (IsWait (g_client G c) m); [|reflexivity].
  destruct (g_client G c) eqn:Hcl; [exact Hre|].
  specialize (Hp2 eq_refl).
  assert (Hs : exec t (bind (opr (OSWaitGet (m_wait m))) (fun w0 => match w0 with
            | Some ch => bind (send ch m) (fun _ => Ret None)
            | None => handle_reply_or_event G c m
            end)) w = exec t (handle_event G c m) w).
  { rewrite (exec_opb t (OSWaitGet (m_wait m)) _ _ _ _ eq_refl). rewrite Hp2. exact Hre. }
  destruct (g_exch G) as [x|]; [|exact Hs].
  destruct Hx as [Hx|[Hx|Hx]]; try congruence. rewrite Hx. exact Hs.
Qed.
End conn.

(** ** Frames that answer *)
Lemma ok_answers tok : good_token tok -> answers (TextMessage, (tok ++ ";;;;;;")%string) tok None.
Proof.
  intros Hw ks allow. cbn [fst snd].
  change (tok ++ ";;;;;;")%string with (genEmptyReplyToWait tok).
  rewrite empty_reply_frame, deserialize_message_frame by (auto; reflexivity). auto.
Qed.

Lemma err_answers m e : good_token (m_wait m) -> m_wait m <> "" -> m_fromExplicit m = "" ->
  (exists text, err_text e = Ok text) -> answers (wire_of (set_err (Some e) m)) (m_wait m) (Some e).
Proof.
  intros Hw Hne Hfe [text Ht] ks allow. unfold wire_of. cbn [fst snd m_setBinary set_err].
  set (m1 := set_fromExplicit "" (set_err (Some e) m)).
  destruct (serialize_printable (set_err (Some e) m)) as [b Hb]; [red; cbn; eauto|].
  fold m1 in Hb. rewrite Hb.
  destruct (deserialize_serialized ks (if m_setBinary m then BinaryMessage else TextMessage) allow m1 b)
    as (x & p & _ & Hx & -> & Hc).
  - intros [_ H]. apply Hne. exact H.
  - reflexivity.
  - exact Hw.
  - exact Hb.
  - cbn [m_isInvalid m_wait m_err m_body m_fromStackExchange]. split; [reflexivity|]. split; [reflexivity|]. split; [reflexivity|].
    cbn [seen_error seen_body].
    destruct Hc as [(H & _)|[(rb & H & -> & ->)|(ge & u & H & Hnr & Hu & -> & ->)]].
    + discriminate.
    + cbn in H. injection H as ->. cbn. destruct (is_empty rb); auto.
    + cbn in H. injection H as ->. rewrite Hu.
      destruct ge; try (exfalso; eapply Hnr; reflexivity); cbn [is_reply]; cbn [String.eqb]; auto.
Qed.

(** A received request never names an explicit sender. *)
Lemma received_fe G c typ b : m_wait (received G c typ b) <> "" -> m_fromExplicit (received G c typ b) = "".
Proof.
  unfold received, DeserializeMessage.
  destruct (isServerConnID _); [|reflexivity]. cbn. congruence.
Qed.
Lemma received_input G c typ b : exists i, deserializeInput (g_known G) b (allowNative G c) (onlyNative G c) = i /\
  m_event (received G c typ b) = unescape (i_event i) /\ m_isInvalid (received G c typ b) = i_isInvalid i.
Proof.
  eexists; split; [reflexivity|]. unfold received, DeserializeMessage.
  destruct (isServerConnID _); auto.
Qed.
Lemma received_valid G c typ b : m_event (received G c typ b) <> "" -> m_isInvalid (received G c typ b) = false.
Proof.
  destruct (received_input G c typ b) as (i & Hi & -> & ->). rewrite <- Hi. unfold deserializeInput.
  destruct (is_empty b); [cbn; congruence|].
  destruct (onlyNative G c); [reflexivity|].
  destruct (splitN _ _ _) as [|? [|? [|? [|? [|? [|? [|? [|? ?]]]]]]]];
    try (destruct (allowNative G c); cbn; congruence).
  intros _. destruct (is_empty _); [reflexivity|]. destruct (String.eqb _ trueByte); reflexivity.
Qed.

(** ** Facts about the reference machine *)
Lemma fire_calls A ns m s : fire A ns m s = s <| cs_fired ::= (fun l => calls A ns m ++ l) |>.
Proof. unfold fire, calls. destruct (callback A ns (m_event m)) as [[key f]|]; destruct s; reflexivity. Qed.

Lemma err_reply_sends R m e s : m_fromExplicit m = "" ->
  (isConnect m = true \/ isDisconnect m = true \/
   exists rs, cs_rooms s !! m_namespace m = Some rs /\ (m_room m = "" \/ isRoomJoin m = true \/ m_room m ∈ rs)) ->
  err_reply R m e s = push (wire_of (set_err (Some e) m)) s.
Proof.
  intros Hfe H. unfold err_reply, try_send, may_send.
  change (m_fromExplicit (set_err (Some e) m)) with (m_fromExplicit m). rewrite Hfe.
  change (isConnect (set_err (Some e) m)) with (isConnect m).
  change (isDisconnect (set_err (Some e) m)) with (isDisconnect m).
  change (isRoomJoin (set_err (Some e) m)) with (isRoomJoin m).
  change (isRoomLeft (set_err (Some e) m)) with (isRoomLeft m).
  change (m_namespace (set_err (Some e) m)) with (m_namespace m).
  change (m_room (set_err (Some e) m)) with (m_room m). cbn [is_empty orb].
  rewrite andb_true_r.
  destruct H as [H|[H|(rs & H & Hr)]]; rewrite H; rewrite ?orb_true_r; [reflexivity|reflexivity|].
  destruct Hr as [Hr|[Hr|Hr]].
  - rewrite Hr. cbn [is_empty orb]. rewrite ?orb_true_r. reflexivity.
  - rewrite Hr. rewrite ?orb_true_r. reflexivity.
  - rewrite (bool_decide_true _ Hr). rewrite ?orb_true_r. reflexivity.
Qed.

Lemma leave_rooms_calls A ns local order s :
  leave_rooms A ns local order s =
  s <| cs_rooms ::= alter (fun rs => rs ∖ list_to_set order) ns |> <| cs_fired ::= (fun l => leaves_calls A ns local order ++ l) |>.
Proof.
  revert s; induction order as [|r order IH]; intros s.
  - cbn. destruct s as [M o f u]. unfold set; cbn. f_equal.
    symmetry. apply map_eq. intros i. destruct (decide (ns = i)) as [<-|Hd]; [|apply lookup_alter_ne, Hd].
    rewrite lookup_alter. destruct (M !! ns) as [rs|]; [|reflexivity]. cbn. f_equal. set_solver.
  - cbn [leave_rooms]. rewrite IH, !fire_calls. destruct s as [M o f u]. unfold set; cbn. f_equal.
    + rewrite <- alter_compose. apply map_eq. intros i. destruct (decide (ns = i)) as [<-|Hd].
      * rewrite !lookup_alter. destruct (M !! ns) as [rs|]; [|reflexivity]. cbn. f_equal. set_solver.
      * rewrite !lookup_alter_ne by exact Hd. reflexivity.
    + unfold leaves_calls. cbn [rev]. rewrite flat_map_app. cbn [flat_map].
      rewrite app_nil_r, <- !app_assoc. unfold leave_calls. rewrite <- app_assoc. reflexivity.
Qed.

Lemma leave_rooms_rooms A ns local order s rs : cs_rooms s !! ns = Some rs -> Permutation order (elements rs) ->
  delete ns (cs_rooms (leave_rooms A ns local order s)) = delete ns (cs_rooms s).
Proof. intros _ _. rewrite leave_rooms_calls. cbn. apply delete_alter. Qed.

(*@file Prop_Conn.v
From Coq Require Import ZArith.
From stdpp Require Import gmap strings list relations.
From RecordUpdate Require Import RecordUpdate.
From Verif Require Import Go Errors Message World Lang Code Sem Spec_Conn Spec_View Spec_Wire CodecProofs Examples.
@*)

(*@prop C19, C12. Whatever frame an undisturbed connection receives (unless it is the reply of a pending Ask),
    the code does exactly what the reference machine of Spec_Conn.v does, returns the same
    error, and touches nothing but this connection.  [order] is the order in which rooms are left. @*)
Lemma l_C19_payload_refines_machine : forall G c A t w typ b,
  setting G c A -> calm G w c -> unasked G w c (received G c typ b) ->
  let m := received G c typ b in
  exists order w',
    (forall rs, cs_rooms (view w c) !! m_namespace m = Some rs -> Permutation order (elements rs)) /\
    exec t (HandlePayload G c typ b) w = XDone w' (snd (handle (role_of G c w) A order m (view w c))) /\
    view w' c = fst (handle (role_of G c w) A order m (view w c)) /\ calm G w' c /\ only c w w'.
Proof. intros G c A t w typ b S C U m. apply (handleMessage_runs G c A S t w m C U). Qed.

(*@ex
(** The hypotheses hold in a reachable state, for every frame; this one is answered. *)
Example C19_example : reachable exG exM /\ setting exG 1 exA /\ calm exG (s_w exM) 1 /\
  (forall typ b, unasked exG (s_w exM) 1 (received exG 1 typ b)) /\
  (let m := received exG 1 TextMessage "$8;chat;open;fail;0;0;hello" in
   cs_sent (fst (handle (role_of exG 1 (s_w exM)) exA [] m (view (s_w exM) 1))) =
   cs_sent (view (s_w exM) 1) ++ [(TextMessage, "$8;chat;open;fail;1;0;bad room")]).
Proof.
  split; [apply play_reachable|]. split; [apply ex_setting|]. split; [apply ex_calm; auto|].
  split; [intros; apply ex_unasked; auto|]. vm_compute. reflexivity.
Qed.
@*)

(*@prop C15. A connect request of the peer.  [v] is the verdict: already connected, or the namespace is
    declared and its callback agrees.  Exactly one answer with the verdict is written; the
    namespace is connected afterwards exactly if it was before or the verdict is positive; a refused
    request changes no membership; callbacks run only if the namespace was not connected. @*)
Lemma l_C15_connect_request : forall G c A t w typ b,
  let m := received G c typ b in
  let ns := m_namespace m in
  setting G c A -> calm G w c -> unasked G w c m ->
  m_event m = OnNamespaceConnect -> m_wait m <> "" -> m_isNoOp m = false ->
  let s := view w c in
  let v := match cs_rooms s !! ns, A !! ns with
           | Some _, _ => None
           | None, None => Some EBadNamespace
           | None, Some _ => answer A ns m
           end in
  exists w' f,
    exec t (HandlePayload G c typ b) w = XDone w' None /\ calm G w' c /\ only c w w' /\
    let s' := view w' c in
    cs_sent s' = cs_sent s ++ [f] /\ (good_token (m_wait m) -> answers f (m_wait m) v) /\
    cs_rooms s' = match cs_rooms s !! ns, v with None, None => <[ns := ∅]> (cs_rooms s) | _, _ => cs_rooms s end /\
    cs_subs s' = match cs_rooms s !! ns, A !! ns, v, g_exch G with
                 | None, Some _, None, Some _ => if g_client G c then cs_subs s else (true, ns) :: cs_subs s
                 | _, _, _, _ => cs_subs s
                 end /\
    cs_fired s' = match cs_rooms s !! ns, A !! ns, v with
                  | None, Some _, None => calls A ns (set_event OnNamespaceConnected m) ++ calls A ns m ++ cs_fired s
                  | None, Some _, Some _ => calls A ns m ++ cs_fired s
                  | _, _, _ => cs_fired s
                  end.
Proof.
  intros G c A t w typ b m ns S C U Hev Hw Hno s v.
  assert (Hval : m_isInvalid m = false) by (apply received_valid; unfold m in Hev; rewrite Hev; discriminate).
  assert (Hfe : m_fromExplicit m = "") by (apply received_fe, Hw).
  destruct (handleMessage_runs G c A S t w m C U) as (order & w' & Hperm & E & V & C' & O').
  unfold handle in E, V. rewrite Hval, Hev in E, V. cbn [String.eqb] in E, V.
  rewrite (String.eqb_refl OnNamespaceConnect) in E, V. cbv match in E, V. cbn [fst snd] in E, V.
  assert (Hreq : is_request m = true).
  { unfold is_request. rewrite Hno. apply is_empty_false in Hw. rewrite Hw. reflexivity. }
  rewrite Hreq in V. unfold on_connect in V. fold ns s in V.
  assert (Hcon : isConnect m = true) by (unfold isConnect; rewrite Hev; reflexivity).
  unfold v. clear v.
  destruct (cs_rooms s !! ns) as [rs|] eqn:ER.
  { exists w', (TextMessage, (m_wait m ++ ";;;;;;")%string). cbv zeta. rewrite V. unfold ok_reply, push, set; cbn.
    repeat (split; [first [exact E|exact C'|exact O'|reflexivity|intros; apply ok_answers; assumption]|]). reflexivity. }
  destruct (A !! ns) as [evs|] eqn:EA.
  2:{ exists w', (wire_of (set_err (Some EBadNamespace) m)). cbv zeta. rewrite V, err_reply_sends by auto. unfold push, set; cbn.
      repeat (split; [first [exact E|exact C'|exact O'|reflexivity|intros; apply err_answers; auto; cbn; eauto]|]). reflexivity. }
  destruct (answer A ns m) as [e|] eqn:EV.
  - exists w', (wire_of (set_err (Some e) m)). cbv zeta. rewrite V, err_reply_sends by auto.
    rewrite fire_calls. unfold push, set; cbn.
    repeat (split; [first [exact E|exact C'|exact O'|reflexivity|intros; apply err_answers; auto; eapply answer_text; [apply S|exact EV]]|]). reflexivity.
  - exists w', (TextMessage, (m_wait m ++ ";;;;;;")%string). cbv zeta. rewrite V, !fire_calls.
    unfold ok_reply, push, subscribed, role_of, set; cbn.
    destruct (g_client G c), (g_exch G); cbn;
    (repeat (split; [first [exact E|exact C'|exact O'|reflexivity|intros; apply ok_answers; assumption]|]); reflexivity).
Qed.

(*@ex
(** A refused request for "vip" and a repeated one for "chat". *)
Example C15_example :
  let m := received exG 1 TextMessage "$9;vip;;_OnNamespaceConnect;0;0;" in
  let m2 := received exG 1 TextMessage "$9;chat;;_OnNamespaceConnect;0;0;" in
  setting exG 1 exA /\ calm exG (s_w exM) 1 /\ unasked exG (s_w exM) 1 m /\
  m_event m = OnNamespaceConnect /\ m_wait m <> "" /\ m_isNoOp m = false /\ good_token (m_wait m) /\
  cs_rooms (view (s_w exM) 1) !! "vip" = None /\ answer exA "vip" m = Some (EUser 4 "members only") /\
  m_event m2 = OnNamespaceConnect /\ cs_rooms (view (s_w exM) 1) !! "chat" = Some {["open"; "jail"]}.
Proof.
  cbv zeta. split; [apply ex_setting|]. split; [apply ex_calm; auto|]. split; [apply ex_unasked; auto|].
  split; [reflexivity|]. split; [discriminate|]. split; [reflexivity|]. split; [apply (genWait_good true 9)|].
  split; [decide_eq|]. split; [reflexivity|]. split; [reflexivity|]. decide_eq.
Qed.
(** An accepted one, on a client-side connection. *)
Example C15_example_accepted :
  let m := received exG 2 TextMessage "9;chat;;_OnNamespaceConnect;0;0;" in
  setting exG 2 exA /\ calm exG (s_w exM) 2 /\ unasked exG (s_w exM) 2 m /\ g_client exG 2 = true /\
  m_event m = OnNamespaceConnect /\ m_wait m = "9" /\ m_isNoOp m = false /\
  cs_rooms (view (s_w exM) 2) = ∅ /\ answer exA "chat" m = None /\
  calls exA "chat" (set_event OnNamespaceConnected m) <> [].
Proof.
  cbv zeta. split; [apply ex_setting|]. split; [apply ex_calm; auto|]. split; [apply ex_unasked; auto|].
  do 4 (split; [reflexivity|]). split; [decide_eq|]. split; [reflexivity|]. vm_compute. discriminate.
Qed.
@*)

(*@prop C16. A disconnect request of the peer.  On the server the callback decides, a client always agrees;
    not being connected is fine too.  On success the namespace with all its rooms is gone and every room
    got its forced leave and left callbacks, in some order of the rooms; on refusal no membership changes. @*)
Lemma l_C16_disconnect_request : forall G c A t w typ b,
  let m := received G c typ b in
  let ns := m_namespace m in
  setting G c A -> calm G w c -> unasked G w c m ->
  m_event m = OnNamespaceDisconnect -> m_wait m <> "" -> m_isNoOp m = false ->
  let s := view w c in
  let v := match cs_rooms s !! ns with
           | None => None
           | Some _ => if g_client G c then None else answer A ns m
           end in
  exists w' f order,
    exec t (HandlePayload G c typ b) w = XDone w' None /\ calm G w' c /\ only c w w' /\
    let s' := view w' c in
    cs_sent s' = cs_sent s ++ [f] /\ (good_token (m_wait m) -> answers f (m_wait m) v) /\
    cs_rooms s' = match v with None => delete ns (cs_rooms s) | Some _ => cs_rooms s end /\
    (forall rs, cs_rooms s !! ns = Some rs -> Permutation order (elements rs)) /\
    cs_subs s' = match cs_rooms s !! ns, v, g_exch G with
                 | Some _, None, Some _ => if g_client G c then cs_subs s else (false, ns) :: cs_subs s
                 | _, _, _ => cs_subs s
                 end /\
    cs_fired s' = match cs_rooms s !! ns, v with
                  | None, _ => cs_fired s
                  | Some _, Some _ => calls A ns m ++ cs_fired s
                  | Some _, None =>
                      if g_client G c then calls A ns m ++ leaves_calls A ns false order ++ cs_fired s
                      else leaves_calls A ns false order ++ calls A ns m ++ cs_fired s
                  end.
Proof.
  intros G c A t w typ b m ns S C U Hev Hw Hno s v.
  assert (Hval : m_isInvalid m = false) by (apply received_valid; unfold m in Hev; rewrite Hev; discriminate).
  assert (Hfe : m_fromExplicit m = "") by (apply received_fe, Hw).
  destruct (handleMessage_runs G c A S t w m C U) as (order & w' & Hperm & E & V & C' & O').
  unfold handle in E, V. rewrite Hval, Hev in E, V.
  change (OnNamespaceDisconnect =? OnNamespaceConnect)%string with false in E, V.
  rewrite (String.eqb_refl OnNamespaceDisconnect) in E, V. cbv match in E, V. cbn [fst snd] in E, V.
  assert (Hreq : is_request m = true).
  { unfold is_request. rewrite Hno. apply is_empty_false in Hw. rewrite Hw. reflexivity. }
  rewrite Hreq in V. unfold on_disconnect in V. fold ns s in V, Hperm.
  change (r_client (role_of G c w)) with (g_client G c) in V.
  assert (Hdis : isDisconnect m = true) by (unfold isDisconnect; rewrite Hev; reflexivity).
  unfold v. clear v.
  destruct (cs_rooms s !! ns) as [rs|] eqn:ER.
  2:{ exists w', (TextMessage, (m_wait m ++ ";;;;;;")%string), order. cbv zeta. rewrite V. unfold ok_reply, push, set; cbn.
      repeat (split; [first [exact E|exact C'|exact O'|reflexivity|intros; apply ok_answers; assumption|discriminate|by destruct (g_exch G)|idtac]|]); [|reflexivity].
      symmetry. apply delete_notin, ER. }
  destruct (g_client G c) eqn:Ecl.
  - exists w', (TextMessage, (m_wait m ++ ";;;;;;")%string), order. cbv zeta. rewrite V, fire_calls, leave_rooms_calls.
    unfold ok_reply, push, set; cbn.
    repeat (split; [first [exact E|exact C'|exact O'|reflexivity|intros; apply ok_answers; assumption|apply delete_alter|exact Hperm|by destruct (g_exch G)]|]). reflexivity.
  - destruct (answer A ns m) as [e|] eqn:EV.
    + exists w', (wire_of (set_err (Some e) m)), order. cbv zeta. rewrite V, err_reply_sends by auto.
      rewrite fire_calls. unfold push, set; cbn.
      repeat (split; [first [exact E|exact C'|exact O'|reflexivity|exact Hperm|intros; apply err_answers; auto; eapply answer_text; [apply S|exact EV]|by destruct (g_exch G)]|]). reflexivity.
    + exists w', (TextMessage, (m_wait m ++ ";;;;;;")%string), order. cbv zeta. rewrite V, !fire_calls, leave_rooms_calls.
      unfold ok_reply, push, unsubscribed, role_of, set; cbn. rewrite Ecl.
      destruct (g_exch G); cbn;
      (repeat (split; [first [exact E|exact C'|exact O'|reflexivity|intros; apply ok_answers; assumption|apply delete_alter|exact Hperm]|]); reflexivity).
Qed.

(*@ex
(** A request that the callback refuses and one that it grants, with two rooms to leave. *)
Example C16_example :
  let m := received exG 1 TextMessage "$9;chat;;_OnNamespaceDisconnect;0;0;stay" in
  let m2 := received exG 1 TextMessage "$9;chat;;_OnNamespaceDisconnect;0;0;" in
  setting exG 1 exA /\ calm exG (s_w exM) 1 /\ unasked exG (s_w exM) 1 m /\ unasked exG (s_w exM) 1 m2 /\
  m_event m = OnNamespaceDisconnect /\ m_wait m <> "" /\ m_isNoOp m = false /\
  answer exA "chat" m = Some (EUser 3 "stay") /\
  m_event m2 = OnNamespaceDisconnect /\ answer exA "chat" m2 = None /\
  cs_rooms (view (s_w exM) 1) !! "chat" = Some {["open"; "jail"]} /\
  length (leaves_calls exA "chat" false ["open"; "jail"]) = 4.
Proof.
  cbv zeta. split; [apply ex_setting|]. split; [apply ex_calm; auto|]. split; [apply ex_unasked; auto|]. split; [apply ex_unasked; auto|].
  split; [reflexivity|]. split; [discriminate|]. do 4 (split; [reflexivity|]). split; [decide_eq|]. reflexivity.
Qed.
@*)

(*@prop C17. A request of the peer to join a room of a connected namespace. @*)
Lemma l_C17_join_request : forall G c A t w typ b rs,
  let m := received G c typ b in
  let ns := m_namespace m in
  setting G c A -> calm G w c -> unasked G w c m ->
  m_event m = OnRoomJoin -> m_wait m <> "" -> m_isNoOp m = false ->
  let s := view w c in
  cs_rooms s !! ns = Some rs ->
  let v := if bool_decide (m_room m ∈ rs) then None else answer A ns m in
  exists w' f,
    exec t (HandlePayload G c typ b) w = XDone w' None /\ calm G w' c /\ only c w w' /\
    let s' := view w' c in
    cs_sent s' = cs_sent s ++ [f] /\ (good_token (m_wait m) -> answers f (m_wait m) v) /\
    cs_rooms s' = match v with None => <[ns := {[m_room m]} ∪ rs]> (cs_rooms s) | Some _ => cs_rooms s end /\
    cs_subs s' = cs_subs s /\
    cs_fired s' = if bool_decide (m_room m ∈ rs) then cs_fired s
                  else match v with
                       | Some _ => calls A ns m ++ cs_fired s
                       | None => calls A ns (set_event OnRoomJoined m) ++ calls A ns m ++ cs_fired s
                       end.
Proof.
  intros G c A t w typ b rs m ns S C U Hev Hw Hno s ER v.
  assert (Hval : m_isInvalid m = false) by (apply received_valid; unfold m in Hev; rewrite Hev; discriminate).
  assert (Hfe : m_fromExplicit m = "") by (apply received_fe, Hw).
  destruct (handleMessage_runs G c A S t w m C U) as (order & w' & Hperm & E & V & C' & O').
  unfold handle in E, V. rewrite Hval, Hev in E, V.
  change (OnRoomJoin =? OnNamespaceConnect)%string with false in E, V.
  change (OnRoomJoin =? OnNamespaceDisconnect)%string with false in E, V.
  rewrite (String.eqb_refl OnRoomJoin) in E, V. cbv match in E, V. cbn [fst snd] in E, V.
  assert (Hreq : is_request m = true).
  { unfold is_request. rewrite Hno. apply is_empty_false in Hw. rewrite Hw. reflexivity. }
  rewrite Hreq in V. unfold on_join in V. fold ns s in V. rewrite ER in V.
  assert (Hjoin : isRoomJoin m = true) by (unfold isRoomJoin; rewrite Hev; reflexivity).
  assert (Halt : forall M : gmap string (gset string), M !! ns = Some rs ->
     alter (fun rs => {[m_room m]} ∪ rs) ns M = <[ns := {[m_room m]} ∪ rs]> M).
  { intros M HM. apply map_eq. intros i. destruct (decide (ns = i)) as [<-|Hd].
    - rewrite lookup_alter, lookup_insert, HM. reflexivity.
    - rewrite lookup_alter_ne, lookup_insert_ne by exact Hd. reflexivity. }
  unfold v. clear v.
  destruct (bool_decide (m_room m ∈ rs)) eqn:EB.
  { exists w', (TextMessage, (m_wait m ++ ";;;;;;")%string). cbv zeta. rewrite V. unfold ok_reply, push, set; cbn.
    repeat (split; [first [exact E|exact C'|exact O'|reflexivity|intros; apply ok_answers; assumption|idtac]|]); [|reflexivity].
    apply bool_decide_eq_true in EB. symmetry. replace ({[m_room m]} ∪ rs) with rs by set_solver. apply insert_id, ER. }
  destruct (answer A ns m) as [e|] eqn:EV.
  - exists w', (wire_of (set_err (Some e) m)). cbv zeta. rewrite V, err_reply_sends.
    2:{ exact Hfe. }
    2:{ right; right. exists rs. split; [|auto]. rewrite fire_calls. exact ER. }
    rewrite fire_calls. unfold push, set; cbn.
    repeat (split; [first [exact E|exact C'|exact O'|reflexivity|intros; apply err_answers; auto; eapply answer_text; [apply S|exact EV]]|]). reflexivity.
  - exists w', (TextMessage, (m_wait m ++ ";;;;;;")%string). cbv zeta. rewrite V, !fire_calls.
    unfold ok_reply, push, set; cbn.
    repeat (split; [first [exact E|exact C'|exact O'|reflexivity|intros; apply ok_answers; assumption|apply Halt, ER]|]). reflexivity.
Qed.

(*@ex
Example C17_join_example :
  let m := received exG 1 TextMessage "$9;chat;closed;_OnRoomJoin;0;0;" in
  let m2 := received exG 1 TextMessage "$9;chat;new room;_OnRoomJoin;0;0;" in
  setting exG 1 exA /\ calm exG (s_w exM) 1 /\ unasked exG (s_w exM) 1 m /\ unasked exG (s_w exM) 1 m2 /\
  m_event m = OnRoomJoin /\ m_wait m <> "" /\ m_isNoOp m = false /\
  answer exA "chat" m = Some (EUser 1 "closed room") /\
  m_event m2 = OnRoomJoin /\ answer exA "chat" m2 = None /\
  cs_rooms (view (s_w exM) 1) !! "chat" = Some {["open"; "jail"]}.
Proof.
  cbv zeta. split; [apply ex_setting|]. split; [apply ex_calm; auto|]. split; [apply ex_unasked; auto|]. split; [apply ex_unasked; auto|].
  split; [reflexivity|]. split; [discriminate|]. do 4 (split; [reflexivity|]). decide_eq.
Qed.
@*)

(*@prop C17. A request of the peer to leave a room of a connected namespace; a client always agrees. @*)
Lemma l_C17_leave_request : forall G c A t w typ b rs,
  let m := received G c typ b in
  let ns := m_namespace m in
  setting G c A -> calm G w c -> unasked G w c m ->
  m_event m = OnRoomLeave -> m_wait m <> "" -> m_isNoOp m = false ->
  let s := view w c in
  cs_rooms s !! ns = Some rs ->
  let v := if bool_decide (m_room m ∈ rs) then if g_client G c then None else answer A ns m else None in
  exists w' f,
    exec t (HandlePayload G c typ b) w = XDone w' None /\ calm G w' c /\ only c w w' /\
    let s' := view w' c in
    cs_sent s' = cs_sent s ++ [f] /\ (good_token (m_wait m) -> answers f (m_wait m) v) /\
    cs_rooms s' = match v with None => <[ns := rs ∖ {[m_room m]}]> (cs_rooms s) | Some _ => cs_rooms s end /\
    cs_subs s' = cs_subs s /\
    cs_fired s' = if bool_decide (m_room m ∈ rs)
                  then match v with
                       | Some _ => calls A ns m ++ cs_fired s
                       | None => calls A ns (set_event OnRoomLeft m) ++ calls A ns m ++ cs_fired s
                       end
                  else cs_fired s.
Proof.
  intros G c A t w typ b rs m ns S C U Hev Hw Hno s ER v.
  assert (Hval : m_isInvalid m = false) by (apply received_valid; unfold m in Hev; rewrite Hev; discriminate).
  assert (Hfe : m_fromExplicit m = "") by (apply received_fe, Hw).
  destruct (handleMessage_runs G c A S t w m C U) as (order & w' & Hperm & E & V & C' & O').
  unfold handle in E, V. rewrite Hval, Hev in E, V.
  change (OnRoomLeave =? OnNamespaceConnect)%string with false in E, V.
  change (OnRoomLeave =? OnNamespaceDisconnect)%string with false in E, V.
  change (OnRoomLeave =? OnRoomJoin)%string with false in E, V.
  rewrite (String.eqb_refl OnRoomLeave) in E, V. cbv match in E, V. cbn [fst snd] in E, V.
  assert (Hreq : is_request m = true).
  { unfold is_request. rewrite Hno. apply is_empty_false in Hw. rewrite Hw. reflexivity. }
  rewrite Hreq in V. unfold on_leave in V. fold ns s in V. rewrite ER in V.
  change (r_client (role_of G c w)) with (g_client G c) in V.
  assert (Halt : forall M : gmap string (gset string), M !! ns = Some rs ->
     alter (fun rs => rs ∖ {[m_room m]}) ns M = <[ns := rs ∖ {[m_room m]}]> M).
  { intros M HM. apply map_eq. intros i. destruct (decide (ns = i)) as [<-|Hd].
    - rewrite lookup_alter, lookup_insert, HM. reflexivity.
    - rewrite lookup_alter_ne, lookup_insert_ne by exact Hd. reflexivity. }
  unfold v. clear v.
  destruct (bool_decide (m_room m ∈ rs)) eqn:EB; cbn [negb] in V.
  2:{ exists w', (TextMessage, (m_wait m ++ ";;;;;;")%string). cbv zeta. rewrite V. unfold ok_reply, push, set; cbn.
      repeat (split; [first [exact E|exact C'|exact O'|reflexivity|intros; apply ok_answers; assumption|idtac]|]); [|reflexivity].
      apply bool_decide_eq_false in EB. symmetry. replace (rs ∖ {[m_room m]}) with rs by set_solver. apply insert_id, ER. }
  apply bool_decide_eq_true in EB.
  destruct (g_client G c).
  - exists w', (TextMessage, (m_wait m ++ ";;;;;;")%string). cbv zeta. rewrite V, !fire_calls.
    unfold ok_reply, push, set; cbn.
    repeat (split; [first [exact E|exact C'|exact O'|reflexivity|intros; apply ok_answers; assumption|apply Halt, ER]|]). reflexivity.
  - destruct (answer A ns m) as [e|] eqn:EV.
    + exists w', (wire_of (set_err (Some e) m)). cbv zeta. rewrite V, err_reply_sends.
      2:{ exact Hfe. }
      2:{ right; right. exists rs. split; [|auto]. rewrite fire_calls. exact ER. }
      rewrite fire_calls. unfold push, set; cbn.
      repeat (split; [first [exact E|exact C'|exact O'|reflexivity|intros; apply err_answers; auto; eapply answer_text; [apply S|exact EV]]|]). reflexivity.
    + exists w', (TextMessage, (m_wait m ++ ";;;;;;")%string). cbv zeta. rewrite V, !fire_calls.
      unfold ok_reply, push, set; cbn.
      repeat (split; [first [exact E|exact C'|exact O'|reflexivity|intros; apply ok_answers; assumption|apply Halt, ER]|]). reflexivity.
Qed.

(*@ex
Example C17_leave_example :
  let m := received exG 1 TextMessage "$9;chat;jail;_OnRoomLeave;0;0;" in
  let m2 := received exG 1 TextMessage "$9;chat;open;_OnRoomLeave;0;0;" in
  setting exG 1 exA /\ calm exG (s_w exM) 1 /\ unasked exG (s_w exM) 1 m /\ unasked exG (s_w exM) 1 m2 /\
  m_event m = OnRoomLeave /\ m_wait m <> "" /\ m_isNoOp m = false /\
  answer exA "chat" m = Some (EUser 2 "no way out") /\
  m_event m2 = OnRoomLeave /\ answer exA "chat" m2 = None /\
  cs_rooms (view (s_w exM) 1) !! "chat" = Some {["open"; "jail"]}.
Proof.
  cbv zeta. split; [apply ex_setting|]. split; [apply ex_calm; auto|]. split; [apply ex_unasked; auto|]. split; [apply ex_unasked; auto|].
  split; [reflexivity|]. split; [discriminate|]. do 4 (split; [reflexivity|]). decide_eq.
Qed.
@*)

(*@prop C20 (violated). No message for a namespace that is not connected, other than a connect or disconnect
    request, is ever answered: nothing is written, no callback runs, nothing changes.  So an Ask, a join or a
    leave request for it gets no answer at all. @*)
Lemma l_C20_unconnected_gets_answer_refuted : forall G c A t w typ b,
  let m := received G c typ b in
  setting G c A -> calm G w c -> unasked G w c m ->
  m_event m <> OnNamespaceConnect -> m_event m <> OnNamespaceDisconnect ->
  cs_rooms (view w c) !! m_namespace m = None ->
  exists w' err, exec t (HandlePayload G c typ b) w = XDone w' err /\ view w' c = view w c /\ only c w w'.
Proof.
  intros G c A t w typ b m S C U H1 H2 HN.
  destruct (handleMessage_runs G c A S t w m C U) as (order & w' & Hperm & E & V & C' & O').
  exists w', (snd (handle (role_of G c w) A order m (view w c))). split; [exact E|]. split; [|exact O'].
  rewrite V. unfold handle.
  destruct (m_isInvalid m); [reflexivity|].
  apply String.eqb_neq in H1, H2. rewrite H1, H2.
  unfold on_join, on_leave. rewrite HN.
  destruct (String.eqb (m_event m) OnRoomJoin); [destruct (is_request m); reflexivity|].
  destruct (String.eqb (m_event m) OnRoomLeave); [destruct (is_request m); reflexivity|]. reflexivity.
Qed.

(*@ex
(** An Ask for the declared namespace "vip", to which connection 1 is not connected. *)
Example C20_example :
  let m := received exG 1 TextMessage "$9;vip;;question;0;0;hello" in
  setting exG 1 exA /\ calm exG (s_w exM) 1 /\ unasked exG (s_w exM) 1 m /\
  m_event m = "question" /\ m_wait m = "$9" /\ cs_rooms (view (s_w exM) 1) !! m_namespace m = None.
Proof.
  cbv zeta. split; [apply ex_setting|]. split; [apply ex_calm; auto|]. split; [apply ex_unasked; auto|].
  do 2 (split; [reflexivity|]). decide_eq.
Qed.
@*)

(** ** Writing *)
Lemma may_send_sendable R M m : may_send R M m = true <-> sendable (r_self R) M m.
Proof.
  unfold may_send, sendable, isConnect, isDisconnect, isRoomJoin, isRoomLeft.
  rewrite andb_true_iff, !orb_true_iff, !String.eqb_eq, negb_true_iff, String.eqb_neq.
  assert (H2 : is_empty (m_fromExplicit m) = true <-> m_fromExplicit m = "").
  { destruct (m_fromExplicit m); cbn; split; congruence. }
  assert (H1 : match M !! m_namespace m with
     | Some rs => is_empty (m_room m) || String.eqb (m_event m) OnRoomJoin || String.eqb (m_event m) OnRoomLeft || bool_decide (m_room m ∈ rs)
     | None => false end = true <->
     exists rs, M !! m_namespace m = Some rs /\
     (m_room m = "" \/ m_event m = OnRoomJoin \/ m_event m = OnRoomLeft \/ m_room m ∈ rs)).
  { destruct (M !! m_namespace m) as [rs|]; [|split; [discriminate|intros (? & ? & _); discriminate]].
    rewrite !orb_true_iff, !String.eqb_eq, bool_decide_eq_true.
    assert (is_empty (m_room m) = true <-> m_room m = "") as -> by (destruct (m_room m); cbn; split; congruence).
    split; [intros H; exists rs; tauto|intros (rs' & [= ->] & H); tauto]. }
  rewrite H1, H2. split; intros [H H']; (split; [tauto|]); destruct H' as [H'|H']; auto; right; congruence.
Qed.

(*@prop C18. Write on an open connection whose handshake is over: it returns [true] and appends exactly one
    frame, the serialized message without explicit sender, if the message is sendable; otherwise it returns
    [false] and nothing changes.  (For an error whose text cannot be computed see C07.) @*)
Lemma l_C18_write : forall G c t w m,
  quiet G w c ->
  match m_err m with None => True | Some e => exists text, err_text e = Ok text end ->
  let self := if g_client G c then c_id (conn_of w c) else serverConnID G c in
  let s := view w c in
  exists w' ok b,
    serializeMessage (set_fromExplicit "" m) = Ok b /\
    exec t (Write G c m) w = XDone w' ok /\ only c w w' /\ quiet G w' c /\
    (ok = true <-> sendable self (cs_rooms s) m) /\
    view w' c = if ok then s <| cs_sent ::= fun l => l ++ [(if m_setBinary m then BinaryMessage else TextMessage, b)] |> else s.
Proof.
  intros G c t w m Q Hp self s.
  destruct (serialize_printable m Hp) as [b Hb].
  pose proof (At G c w (view w c) (c_nss (conn_of w c)) Q eq_refl eq_refl) as Hat.
  destruct (Write_runs G c t w _ _ m Hat Hp) as (w' & E & H' & O').
  exists w', (may_send (role_of G c w) (cs_rooms s) m), b.
  split; [exact Hb|]. split; [exact E|]. split; [exact O'|]. split; [apply H'|].
  split; [apply (may_send_sendable (role_of G c w))|].
  rewrite (a_view _ _ _ _ _ H'). unfold try_send. fold s.
  destruct (may_send _ _ _); [|reflexivity]. unfold push, wire_of. rewrite Hb. reflexivity.
Qed.

(*@ex
(** Some messages that pass and some that do not. *)
Example C18_example :
  let msg ns room ev := set_event ev (set_room room (set_namespace ns no_message)) in
  let M := cs_rooms (view (s_w exM) 1) in
  quiet exG (s_w exM) 1 /\
  sendable "x" M (msg "chat" "open" "hi") /\ ~ sendable "x" M (msg "chat" "other" "hi") /\
  sendable "x" M (msg "chat" "other" OnRoomLeft) /\ ~ sendable "x" M (msg "vip" "" "hi") /\
  sendable "x" M (msg "vip" "" OnNamespaceConnect) /\ ~ sendable "x" M (set_fromExplicit "x" (msg "chat" "" "hi")).
Proof.
  cbv zeta. split; [apply ex_calm; auto|].
  assert (HM : cs_rooms (view (s_w exM) 1) = {["chat" := {["open"; "jail"]}]}) by (decide_eq).
  rewrite HM. unfold sendable. cbn.
  split. { split; [|auto]. right; right. exists {["open"; "jail"]}. split; [reflexivity|]. do 3 right. decide_eq. }
  split. { intros [[H|[H|(rs & H & Hr)]] _]; [discriminate|discriminate|].
           apply lookup_singleton_Some in H as [_ <-].
           assert (Hn : "other" ∉ ({["open"; "jail"]} : gset string)) by decide_eq.
           destruct Hr as [H|[H|[H|H]]]; solve [discriminate|exact (Hn H)]. }
  split. { split; [|auto]. right; right. exists {["open"; "jail"]}. auto. }
  split. { intros [[H|[H|(rs & H & Hr)]] _]; [discriminate|discriminate|].
           apply lookup_singleton_Some in H as [H _]. congruence. }
  split; [auto|]. intros [_ [H|H]]; [discriminate|auto].
Qed.
@*)

(*@prop C18. Write on a closed connection: [false], nothing changes. @*)
Lemma l_C18_write_closed : forall G c t w m, c_closed (conn_of w c) = true -> exec t (Write G c m) w = XDone w false.
Proof.
  intros G c t w m H. unfold Write, canWrite. rewrite exec_bind. rewrite (exec_opb t (OIsClosed c) _ _ w true); [reflexivity|].
  cbn [ostep]. rewrite H. reflexivity.
Qed.

(*@ex
Example C18_closed_example :
  c_closed (conn_of (s_w (play exG (handshake1 ++ [Act1 (Env (EReadEnd 1 EEOF)); Go 3]) (init exG))) 1) = true.
Proof. vm_compute. reflexivity. Qed.
@*)

(*@prop C18, C29. Write on a server side connection that was not accepted yet accepts it: it opens the readiness gate
    with success and then does what it does on an accepted connection. @*)
Lemma l_C18_write_accepts : forall G c t w m,
  g_client G c = false -> c_closed (conn_of w c) = false -> w_ready (c_wait (conn_of w c)) = false ->
  w_chclosed (c_wait (conn_of w c)) = false ->
  exec t (Write G c m) w = exec t (Write G c m)
    (upd_conn c (fun k => k <| c_wait := Waiter false true None (w_locked (c_wait k)) |>) w).
Proof.
  intros G c t w m Hcl Hop Hr Hch. unfold Write. rewrite !exec_bind. f_equal. unfold canWrite.
  rewrite (exec_opb t (OIsClosed c) _ _ w false) by (cbn [ostep]; rewrite Hop; reflexivity).
  set (w1 := upd_conn c (fun k => k <| c_wait := Waiter false true None (w_locked (c_wait k)) |>) w).
  rewrite (exec_opb t (OIsClosed c) _ _ w1 false).
  2:{ cbn [ostep]. unfold w1 at 2. rewrite conn_upd_eq. cbn. rewrite Hop. reflexivity. }
  unfold IsClient. rewrite Hcl.
  rewrite (exec_bind_done t (unwait c None) _ w1 w1 tt).
  2:{ apply unwait_exec. unfold w1. rewrite conn_upd_eq. reflexivity. }
  rewrite (exec_bind_done t (unwait c None) _ w w1 tt); [reflexivity|].
  unfold unwait.
  rewrite (exec_opb t (OWReady c) _ _ w false) by (cbn [ostep]; rewrite Hr; reflexivity).
  rewrite (exec_opb t (OWSetErr c None) _ _ _ _ eq_refl).
  rewrite (exec_opb t (OWSetReady c) _ _ _ _ eq_refl). rewrite upd_conn_twice.
  destruct (w_locked (c_wait (conn_of w c))) eqn:Hl.
  - rewrite (exec_opb t (OWCasUnlock c) _ _ (upd_conn c (fun k => k <| c_wait := Waiter false true None false |>) w) true).
    2:{ cbn [ostep]. rewrite conn_upd_eq. cbn. rewrite Hl. rewrite upd_conn_twice. f_equal. apply upd_conn_ext.
        destruct (conn_of w c) as [? ? ? ? ? [? ? ? ?]]; cbn in *. unfold set; cbn. subst. reflexivity. }
    cbn [opr exec ostep]. rewrite conn_upd_eq. cbn. rewrite upd_conn_twice. f_equal. apply upd_conn_ext. cbn. rewrite Hl. reflexivity.
  - rewrite (exec_opb t (OWCasUnlock c) _ _ w1 false); [reflexivity|].
    cbn [ostep]. rewrite conn_upd_eq. cbn. rewrite Hl. f_equal. apply upd_conn_ext.
    destruct (conn_of w c) as [? ? ? ? ? [? ? ? ?]]; cbn in *. unfold set; cbn. subst. reflexivity.
Qed.

(*@ex
(** Right after the connection was made, before OnConnect returned. *)
Example C18_accepts_example :
  let w := s_w (play exG ([Go 0; Act1 (Env (EGo (TUpgrade 1)))] ++ repeat (Act1 (Step 1)) 3) (init exG)) in
  g_client exG 1 = false /\ valid_conn w 1 = true /\ c_closed (conn_of w 1) = false /\ w_ready (c_wait (conn_of w 1)) = false /\
  w_chclosed (c_wait (conn_of w 1)) = false.
Proof. vm_compute. auto. Qed.
@*)

(** ** Sequences of messages *)
Lemma handle_members R A order m s :
  (forall rs, cs_rooms s !! m_namespace m = Some rs -> Permutation order (elements rs)) ->
  cs_rooms (fst (handle R A order m s)) = member_step (r_client R) A m (cs_rooms s).
Proof.
  intros Hperm. unfold handle, member_step, is_request.
  assert (Htry : forall e s0, cs_rooms (err_reply R m e s0) = cs_rooms s0).
  { intros e s0. unfold err_reply, try_send. destruct (may_send _ _ _); reflexivity. }
  destruct (m_isInvalid m); [reflexivity|]. cbn [orb].
  destruct (is_empty (m_wait m) || m_isNoOp m) eqn:Er.
  - assert (negb (is_empty (m_wait m)) && negb (m_isNoOp m) = false) as ->.
    { destruct (is_empty (m_wait m)), (m_isNoOp m); cbn in *; auto; discriminate. }
    destruct (String.eqb (m_event m) OnNamespaceConnect); [reflexivity|].
    destruct (String.eqb (m_event m) OnNamespaceDisconnect); [reflexivity|].
    destruct (String.eqb (m_event m) OnRoomJoin); [reflexivity|].
    destruct (String.eqb (m_event m) OnRoomLeave); [reflexivity|].
    destruct (cs_rooms s !! m_namespace m); [|reflexivity].
    destruct (answer A (m_namespace m) (set_isLocal false m)); cbn [fst]; rewrite fire_calls; [|reflexivity].
    unfold err_reply, try_send. destruct (may_send _ _ _); reflexivity.
  - assert (negb (is_empty (m_wait m)) && negb (m_isNoOp m) = true) as ->.
    { destruct (is_empty (m_wait m)), (m_isNoOp m); cbn in *; auto; discriminate. }
    destruct (String.eqb (m_event m) OnNamespaceConnect).
    { cbn [fst]. unfold on_connect. destruct (cs_rooms s !! m_namespace m); [reflexivity|].
      destruct (A !! m_namespace m); [|apply Htry]. rewrite !fire_calls.
      destruct (answer A (m_namespace m) m); [rewrite Htry; reflexivity|].
      unfold subscribed. destruct (negb _ && _); reflexivity. }
    destruct (String.eqb (m_event m) OnNamespaceDisconnect).
    { cbn [fst]. unfold on_disconnect. destruct (cs_rooms s !! m_namespace m) eqn:E.
      - destruct (r_client R); cbn [orb].
        + rewrite fire_calls, leave_rooms_calls. cbn. apply delete_alter.
        + rewrite fire_calls. destruct (answer A (m_namespace m) m); [rewrite Htry; reflexivity|].
          rewrite leave_rooms_calls. unfold unsubscribed. destruct (negb _ && _); cbn; apply delete_alter.
      - cbn. destruct (r_client R || match answer A (m_namespace m) m with Some _ => false | None => true end); [|reflexivity]. symmetry. apply delete_notin, E. }
    assert (Halt : forall (M : gmap string (gset string)) (f : gset string -> gset string) i rs, M !! i = Some rs ->
       alter f i M = <[i := f rs]> M).
    { intros M f i rs HM. apply map_eq. intros j. destruct (decide (i = j)) as [<-|Hd].
      - rewrite lookup_alter, lookup_insert, HM. reflexivity.
      - rewrite lookup_alter_ne, lookup_insert_ne by exact Hd. reflexivity. }
    destruct (String.eqb (m_event m) OnRoomJoin).
    { cbn [fst]. unfold on_join. destruct (cs_rooms s !! m_namespace m) eqn:E; [|reflexivity].
      destruct (bool_decide _); [reflexivity|]. rewrite !fire_calls.
      destruct (answer A (m_namespace m) m); [rewrite Htry; reflexivity|]. cbn. apply Halt, E. }
    destruct (String.eqb (m_event m) OnRoomLeave).
    { cbn [fst]. unfold on_leave. destruct (cs_rooms s !! m_namespace m) eqn:E; [|reflexivity].
      destruct (bool_decide _); [|reflexivity]. cbn [negb]. rewrite !fire_calls.
      destruct (r_client R); cbn [orb]; [cbn; apply (Halt _ (fun rs => rs ∖ {[m_room m]})), E|].
      destruct (answer A (m_namespace m) m); [rewrite Htry; reflexivity|]. cbn. apply (Halt _ (fun rs => rs ∖ {[m_room m]})), E. }
    destruct (cs_rooms s !! m_namespace m); [|reflexivity].
    destruct (answer A (m_namespace m) (set_isLocal false m)); cbn [fst]; rewrite fire_calls; [|reflexivity].
    unfold err_reply, try_send. destruct (may_send _ _ _); reflexivity.
Qed.

(*@prop C19. Processing any list of frames (none of them the reply of a pending Ask) makes the connected namespaces and
    joined rooms what the membership specification says, and leaves the connection ready for more. @*)
Lemma l_C19_membership_of_sequence : forall G c A t frames w,
  setting G c A -> calm G w c ->
  (forall typ b, (typ, b) ∈ frames -> unasked G w c (received G c typ b)) ->
  exists w',
    exec t (for_all frames (fun f => bind (HandlePayload G c (fst f) (snd f)) (fun _ => Ret tt))) w = XDone w' tt /\
    calm G w' c /\ only c w w' /\
    cs_rooms (view w' c) =
      fold_left (fun M f => member_step (g_client G c) A (received G c (fst f) (snd f)) M) frames (cs_rooms (view w c)).
Proof.
  intros G c A t frames. induction frames as [|[typ b] frames IH]; intros w S C U.
  { exists w. cbn. split; [reflexivity|]. split; [exact C|]. split; [apply only_refl|reflexivity]. }
  destruct (handleMessage_runs G c A S t w (received G c typ b) C) as (order & w1 & Hperm & E & V & C1 & O1).
  { apply U. constructor. }
  destruct (IH w1 S C1) as (w' & E' & C' & O' & V').
  { intros typ' b' Hi. destruct (U typ' b') as [U0|[[U1 U2] U3]]; [constructor; exact Hi|left; exact U0|]. right. split; [|exact U3].
    unfold no_pending. rewrite (y_waiting _ _ _ O1), (y_srv _ _ _ O1). auto. }
  exists w'. split; [|split; [exact C'|split; [eapply only_trans; eassumption|]]].
  - cbn [for_all fst snd]. unfold HandlePayload, deserialize.
    rewrite (bind_assoc_exec _ _ _ _ _ _ _ E). cbn [bind]. exact E'.
  - rewrite V', V, handle_members by exact Hperm. reflexivity.
Qed.

(*@ex
(** Connect, join, leave, disconnect and rubbish in one list. *)
Example C19_sequence_example :
  let frames := [(TextMessage, "$1;chat;;_OnNamespaceConnect;0;0;"); (TextMessage, "$2;chat;r;_OnRoomJoin;0;0;");
                 (TextMessage, "$3;chat;closed;_OnRoomJoin;0;0;"); (BinaryMessage, ";;;"); (TextMessage, "$4;vip;;_OnNamespaceConnect;0;0;");
                 (TextMessage, "$5;chat;open;_OnRoomLeave;0;0;"); (TextMessage, "$5;chat;jail;_OnRoomLeave;0;0;")] in
  setting exG 1 exA /\ calm exG (s_w exM) 1 /\
  (forall typ b, (typ, b) ∈ frames -> unasked exG (s_w exM) 1 (received exG 1 typ b)) /\
  fold_left (fun M f => member_step (g_client exG 1) exA (received exG 1 (fst f) (snd f)) M) frames
    (cs_rooms (view (s_w exM) 1)) = {["chat" := {["jail"; "r"]}]}.
Proof.
  cbv zeta. split; [apply ex_setting|]. split; [apply ex_calm; auto|]. split; [intros; apply ex_unasked; auto|].
  decide_eq.
Qed.
@*)
