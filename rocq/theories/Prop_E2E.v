(** * Prop_E2E.v : property theorems (generated by tools/genprops.py from E2EProofs.v).
    Every proof is the lemma of the same name in E2EProofs.v. *)
From Coq Require Import ZArith.
From stdpp Require Import gmap strings list relations.
From RecordUpdate Require Import RecordUpdate.
From Verif Require Import Go Errors Message World Lang Code Sem Spec_Conn Spec_View Spec_Wire Examples.
From Verif Require Import E2EProofs.

(** C50. Connect between two ends (either may be the client).  [v] is what the other end decides.  The call
    returns the error that [v] shows; the caller is connected exactly if [v] shows none; the other end
    is connected exactly if it was or [v] is agreement. *)
Theorem C50_connect : forall G a b Aa Ab ta tb tr x ns w,
  let tok := genWait (g_client G a) (w_now w) in
  linked G a b Aa Ab w tok -> ctx_live w x -> safe_name ns ->
  cs_rooms (view w a) !! ns = None -> is_Some (Aa !! ns) -> answer Aa ns (hello ns) = None ->
  let v := match cs_rooms (view w b) !! ns, Ab !! ns with
           | Some _, _ => None
           | None, None => Some EBadNamespace
           | None, Some _ => answer Ab ns (arrived G b tok (hello ns))
           end in
  exists w4 n err, exchange G a b ta tb tr (Connect G a x ns) w w4 (n, err) /\ quiet G w4 a /\ quiet G w4 b /\
    err = seen_error (g_known G) v /\ (is_Some n <-> err = None) /\
    cs_rooms (view w4 a) = match err with None => <[ns := ∅]> (cs_rooms (view w a)) | Some _ => cs_rooms (view w a) end /\
    cs_rooms (view w4 b) = match cs_rooms (view w b) !! ns, v with
                           | None, None => <[ns := ∅]> (cs_rooms (view w b))
                           | _, _ => cs_rooms (view w b)
                           end.
Proof. exact l_C50_connect. Qed.
Print Assumptions C50_connect.

(** C50. With a clear verdict the two ends agree: either the call succeeds and both are connected, or it
    fails and neither end changed. *)
Theorem C50_connect_agree : forall G a b Aa Ab ta tb tr x ns w,
  let tok := genWait (g_client G a) (w_now w) in
  linked G a b Aa Ab w tok -> ctx_live w x -> safe_name ns ->
  cs_rooms (view w a) !! ns = None -> is_Some (Aa !! ns) -> answer Aa ns (hello ns) = None ->
  clear_verdict (answer Ab ns (arrived G b tok (hello ns))) ->
  exists w4 n err, exchange G a b ta tb tr (Connect G a x ns) w w4 (n, err) /\
    (err = None /\ is_Some n /\ is_Some (cs_rooms (view w4 a) !! ns) /\ is_Some (cs_rooms (view w4 b) !! ns) \/
     is_Some err /\ n = None /\ cs_rooms (view w4 a) = cs_rooms (view w a) /\ cs_rooms (view w4 b) = cs_rooms (view w b)).
Proof. exact l_C50_connect_agree. Qed.
Print Assumptions C50_connect_agree.

(** C50 is violated without that: if the other end's connect callback refuses with a Reply or with an error
    without text, then Connect succeeds and the caller is connected while the other end is not. *)
Theorem C50_connect_agree_refuted : forall G a b Aa Ab ta tb tr x ns w e,
  let tok := genWait (g_client G a) (w_now w) in
  linked G a b Aa Ab w tok -> ctx_live w x -> safe_name ns ->
  cs_rooms (view w a) !! ns = None -> is_Some (Aa !! ns) -> answer Aa ns (hello ns) = None ->
  cs_rooms (view w b) !! ns = None -> is_Some (Ab !! ns) ->
  answer Ab ns (arrived G b tok (hello ns)) = Some e -> (is_Some (is_reply e) \/ err_text e = Ok ""%string) ->
  exists w4 n, exchange G a b ta tb tr (Connect G a x ns) w w4 (Some n, None) /\
    is_Some (cs_rooms (view w4 a) !! ns) /\ cs_rooms (view w4 b) !! ns = None.
Proof. exact l_C50_connect_agree_refuted. Qed.
Print Assumptions C50_connect_agree_refuted.

(** The client-side connection 2 of exM and a server-side connection 1: "vip" refuses, "chat" is connected at the
    server already.  A second application replies from its connect callback. *)
Definition exA2 : app := <["odd" := {[OnNamespaceConnect := fun m => Some (EReply "welcome")]}]> exA.
Definition exG2 : cfg := {|
  g_client := g_client exG; g_namespaces := fun c => if Nat.eqb c 1 then lift exA2 else lift (<["odd" := ∅]> (<["vip" := ∅]> exA));
  g_connid := g_connid exG; g_uuid := g_uuid exG; g_ptr := g_ptr exG; g_known := g_known exG; g_exch := None; g_sync := false;
  g_firealways := false; g_onconnect := None; g_ondisconnect := None; g_do := g_do exG; g_user := g_user exG |}.
Definition exM2 : sys := play exG2 (handshake1 ++ handshake2 ++ member1) (init exG2).
Lemma exA2_text ns evs key f m e : exA2 !! ns = Some evs -> evs !! key = Some f -> f m = Some e ->
  exists text, err_text e = Ok text.
Proof.
  intros H1 H2 H3. unfold exA2 in H1. apply lookup_insert_Some in H1 as [[<- <-]|[_ H1]].
  - apply lookup_singleton_Some in H2 as [<- <-]. injection H3 as <-. cbn. eauto.
  - eapply exA_text; eassumption.
Qed.
Definition exA2c : app := <["odd" := ∅]> (<["vip" := ∅]> exA).
Lemma exA2c_text ns evs key f m e : exA2c !! ns = Some evs -> evs !! key = Some f -> f m = Some e ->
  exists text, err_text e = Ok text.
Proof.
  intros H1 H2 H3. unfold exA2c in H1.
  apply lookup_insert_Some in H1 as [[<- <-]|[_ H1]]; [rewrite lookup_empty in H2; discriminate|].
  apply lookup_insert_Some in H1 as [[<- <-]|[_ H1]]; [rewrite lookup_empty in H2; discriminate|].
  eapply exA_text; eassumption.
Qed.
Lemma ex_linked tok : linked exG2 2 1 exA2c exA2 (s_w exM2) tok.
Proof.
  split.
  - discriminate.
  - split; [reflexivity|intros; eapply exA2c_text; eassumption|vm_compute; reflexivity].
  - split; [reflexivity|intros; eapply exA2_text; eassumption|vm_compute; reflexivity].
  - split; [apply quietb_ok|apply idleb_ok]; vm_compute; reflexivity.
  - split; [apply quietb_ok|apply idleb_ok]; vm_compute; reflexivity.
  - intros n n' p. assert (c_procs (conn_of (s_w exM2) 2) = ∅) as -> by (vm_compute; reflexivity). rewrite lookup_empty. intros H; discriminate H.
  - split; [assert (c_waiting (conn_of (s_w exM2) 1) = ∅) as -> by (vm_compute; reflexivity); apply lookup_empty|].
    intros _. assert (s_waiting (w_srv (s_w exM2)) = ∅) as -> by (vm_compute; reflexivity). apply lookup_empty.
  - split; [assert (c_waiting (conn_of (s_w exM2) 2) = ∅) as -> by (vm_compute; reflexivity); apply lookup_empty|discriminate].
  - vm_compute. reflexivity.
  - discriminate.
Qed.
Example C50_connect_example :
  reachable exG2 exM2 /\ (forall tok, linked exG2 2 1 exA2c exA2 (s_w exM2) tok) /\ ctx_live (s_w exM2) None /\
  cs_rooms (view (s_w exM2) 2) = ∅ /\ is_Some (exA2c !! "chat") /\ is_Some (exA2c !! "odd") /\
  answer exA2c "chat" (hello "chat") = None /\ answer exA2c "odd" (hello "odd") = None /\
  (let m := arrived exG2 1 "$0" (hello "chat") in clear_verdict (answer exA2 "chat" m)) /\
  cs_rooms (view (s_w exM2) 1) !! "odd" = None /\ is_Some (exA2 !! "odd") /\
  (let m := arrived exG2 1 "$0" (hello "odd") in answer exA2 "odd" m = Some (EReply "welcome")) /\
  genWait (g_client exG2 2) (w_now (s_w exM2)) = "$0".
Proof.
  split; [apply play_reachable|]. split; [apply ex_linked|]. split; [exact I|]. split; [decide_eq|].
  split; [eexists; vm_compute; reflexivity|]. split; [eexists; vm_compute; reflexivity|]. do 2 (split; [vm_compute; reflexivity|]).
  split; [vm_compute; exact I|]. split; [decide_eq|]. split; [eexists; vm_compute; reflexivity|]. split; vm_compute; reflexivity.
Qed.

(** C50. JoinRoom between two ends that are connected to the namespace.  The other end has joined exactly if
    it had or its callback agreed; the caller has exactly if the reply shows no error and then its own
    callback agrees; the call returns the error that it saw. *)
Theorem C50_join : forall G a b Aa Ab ta tb tr x n room w rsa rsb,
  let ns := n_name n in
  let tok := genWait (g_client G a) (w_now w) in
  linked G a b Aa Ab w tok -> ctx_live w x -> safe_name ns -> safe_name room ->
  c_nss (conn_of w a) !! ns = Some n -> cs_rooms (view w a) !! ns = Some rsa -> room ∉ rsa ->
  cs_rooms (view w b) !! ns = Some rsb ->
  let v := if bool_decide (room ∈ rsb) then None else answer Ab ns (arrived G b tok (join_msg ns room)) in
  exists w4 r err, exchange G a b ta tb tr (JoinRoom G (Some n) x room) w w4 (r, err) /\ quiet G w4 a /\ quiet G w4 b /\
    err = match seen_error (g_known G) v with Some e => Some e | None => answer Aa ns (join_msg ns room) end /\
    (is_Some r <-> err = None) /\
    cs_rooms (view w4 a) = match err with None => <[ns := {[room]} ∪ rsa]> (cs_rooms (view w a)) | Some _ => cs_rooms (view w a) end /\
    cs_rooms (view w4 b) = match v with None => <[ns := {[room]} ∪ rsb]> (cs_rooms (view w b)) | Some _ => cs_rooms (view w b) end.
Proof. exact l_C50_join. Qed.
Print Assumptions C50_join.

(** C50. If the verdict is clear and the caller's own join callback agrees, both ends join or neither does. *)
Theorem C50_join_agree : forall G a b Aa Ab ta tb tr x n room w rsa rsb,
  let ns := n_name n in
  let tok := genWait (g_client G a) (w_now w) in
  linked G a b Aa Ab w tok -> ctx_live w x -> safe_name ns -> safe_name room ->
  c_nss (conn_of w a) !! ns = Some n -> cs_rooms (view w a) !! ns = Some rsa -> room ∉ rsa ->
  cs_rooms (view w b) !! ns = Some rsb ->
  clear_verdict (answer Ab ns (arrived G b tok (join_msg ns room))) -> answer Aa ns (join_msg ns room) = None ->
  exists w4 r err, exchange G a b ta tb tr (JoinRoom G (Some n) x room) w w4 (r, err) /\
    (err = None /\ is_Some r /\ cs_rooms (view w4 a) = <[ns := {[room]} ∪ rsa]> (cs_rooms (view w a)) /\
       cs_rooms (view w4 b) = <[ns := {[room]} ∪ rsb]> (cs_rooms (view w b)) \/
     is_Some err /\ r = None /\ cs_rooms (view w4 a) = cs_rooms (view w a) /\ cs_rooms (view w4 b) = cs_rooms (view w b)).
Proof. exact l_C50_join_agree. Qed.
Print Assumptions C50_join_agree.

(** C50 is violated for JoinRoom without that: the caller's own callback is asked only after the other end
    has joined; if it refuses, the call fails, the caller has not joined, and the other end has. *)
Theorem C50_join_agree_refuted : forall G a b Aa Ab ta tb tr x n room w rsa rsb e,
  let ns := n_name n in
  let tok := genWait (g_client G a) (w_now w) in
  linked G a b Aa Ab w tok -> ctx_live w x -> safe_name ns -> safe_name room ->
  c_nss (conn_of w a) !! ns = Some n -> cs_rooms (view w a) !! ns = Some rsa -> room ∉ rsa ->
  cs_rooms (view w b) !! ns = Some rsb ->
  answer Ab ns (arrived G b tok (join_msg ns room)) = None -> answer Aa ns (join_msg ns room) = Some e ->
  exists w4, exchange G a b ta tb tr (JoinRoom G (Some n) x room) w w4 (None, Some e) /\
    cs_rooms (view w4 a) = cs_rooms (view w a) /\ cs_rooms (view w4 b) = <[ns := {[room]} ∪ rsb]> (cs_rooms (view w b)).
Proof. exact l_C50_join_agree_refuted. Qed.
Print Assumptions C50_join_agree_refuted.

(** C50. Leave of a room between two ends that are connected to the namespace (a client always agrees to
    leave). *)
Theorem C50_leave : forall G a b Aa Ab ta tb tr x n room w rsa rsb,
  let ns := n_name n in
  let tok := genWait (g_client G a) (w_now w) in
  linked G a b Aa Ab w tok -> ctx_live w x -> safe_name ns -> safe_name room ->
  c_nss (conn_of w a) !! ns = Some n -> cs_rooms (view w a) !! ns = Some rsa -> room ∈ rsa ->
  cs_rooms (view w b) !! ns = Some rsb ->
  let v := if bool_decide (room ∈ rsb)
           then if g_client G b then None else answer Ab ns (arrived G b tok (leave_req ns room)) else None in
  exists w4 err, exchange G a b ta tb tr (RoomLeave G n room x) w w4 err /\ quiet G w4 a /\ quiet G w4 b /\
    err = match seen_error (g_known G) v with Some e => Some e | None => answer Aa ns (leave_req ns room) end /\
    cs_rooms (view w4 a) = match err with None => <[ns := rsa ∖ {[room]}]> (cs_rooms (view w a)) | Some _ => cs_rooms (view w a) end /\
    cs_rooms (view w4 b) = match v with None => <[ns := rsb ∖ {[room]}]> (cs_rooms (view w b)) | Some _ => cs_rooms (view w b) end.
Proof. exact l_C50_leave. Qed.
Print Assumptions C50_leave.

(** C50. Disconnect between two ends. *)
Theorem C50_disconnect : forall G a b Aa Ab ta tb tr x n w,
  let ns := n_name n in
  let tok := genWait (g_client G a) (w_now w) in
  linked G a b Aa Ab w tok -> ctx_live w x -> safe_name ns ->
  c_nss (conn_of w a) !! ns = Some n ->
  let v := match cs_rooms (view w b) !! ns with
           | None => None
           | Some _ => if g_client G b then None else answer Ab ns (arrived G b tok (goodbye ns))
           end in
  exists w4 err, exchange G a b ta tb tr (Disconnect G (Some n) x) w w4 err /\ quiet G w4 a /\ quiet G w4 b /\
    err = seen_error (g_known G) v /\
    cs_rooms (view w4 a) = match err with None => delete ns (cs_rooms (view w a)) | Some _ => cs_rooms (view w a) end /\
    cs_rooms (view w4 b) = match v with None => delete ns (cs_rooms (view w b)) | Some _ => cs_rooms (view w b) end.
Proof. exact l_C50_disconnect. Qed.
Print Assumptions C50_disconnect.

(** C49. An Ask in a connected namespace whose remote callback (for an event of the application) returns [e]:
    a Reply gives exactly its bytes and no error; any other error gives the error that its text resolves to. *)
Theorem C49_ask : forall G a b Aa Ab ta tb tr x m w rs e,
  let ns := m_namespace m in
  let tok := genWait (g_client G a) (w_now w) in
  linked G a b Aa Ab w tok -> ctx_live w x -> request m ->
  sendable (r_self (role_of G a w)) (cs_rooms (view w a)) m ->
  ~ In (m_event m) [OnNamespaceConnect; OnNamespaceDisconnect; OnRoomJoin; OnRoomLeave] ->
  cs_rooms (view w b) !! ns = Some rs -> (m_room m = "" \/ m_room m ∈ rs) ->
  answer Ab ns (arrived G b tok m) = Some e ->
  exists w4 reply err, exchange G a b ta tb tr (Ask G a x m) w w4 (reply, err) /\ quiet G w4 a /\ quiet G w4 b /\
    err = seen_error (g_known G) (Some e) /\ m_body reply = seen_body (Some e) /\ m_wait reply = tok /\
    cs_fired (view w4 b) = calls Ab ns (arrived G b tok m) ++ cs_fired (view w b) /\
    cs_rooms (view w4 a) = cs_rooms (view w a) /\ cs_rooms (view w4 b) = cs_rooms (view w b).
Proof. exact l_C49_ask. Qed.
Print Assumptions C49_ask.

(** "echo" replies, "fail" returns the known error EBadRoom. *)
Definition member2 : list cmd :=
  [Act1 (Env (EDeliver 2 TextMessage "1;chat;;_OnNamespaceConnect;0;0;")); Go 5].
Definition exM3 : sys := play exG2 (handshake1 ++ handshake2 ++ member1 ++ member2) (init exG2).
Lemma ex_linked3 tok : linked exG2 2 1 exA2c exA2 (s_w exM3) tok.
Proof.
  split.
  - discriminate.
  - split; [reflexivity|intros; eapply exA2c_text; eassumption|vm_compute; reflexivity].
  - split; [reflexivity|intros; eapply exA2_text; eassumption|vm_compute; reflexivity].
  - split; [apply quietb_ok|apply idleb_ok]; vm_compute; reflexivity.
  - split; [apply quietb_ok|apply idleb_ok]; vm_compute; reflexivity.
  - intros n n' p. assert (c_procs (conn_of (s_w exM3) 2) = ∅) as -> by (vm_compute; reflexivity). rewrite lookup_empty. intros H; discriminate H.
  - split; [assert (c_waiting (conn_of (s_w exM3) 1) = ∅) as -> by (vm_compute; reflexivity); apply lookup_empty|].
    intros _. assert (s_waiting (w_srv (s_w exM3)) = ∅) as -> by (vm_compute; reflexivity). apply lookup_empty.
  - split; [assert (c_waiting (conn_of (s_w exM3) 2) = ∅) as -> by (vm_compute; reflexivity); apply lookup_empty|discriminate].
  - vm_compute. reflexivity.
  - discriminate.
Qed.
Example C49_example :
  let w := s_w exM3 in let m := set_body "hi;there" (set_event "echo" (set_namespace "chat" no_message)) in
  (forall tok, linked exG2 2 1 exA2c exA2 w tok) /\ ctx_live w None /\
  sendable (r_self (role_of exG2 2 w)) (cs_rooms (view w 2)) m /\
  cs_rooms (view w 1) !! "chat" = Some {["open"; "jail"]} /\
  answer exA2 "chat" (arrived exG2 1 "$0" m) = Some (EReply "hi;there") /\
  answer exA2 "chat" (arrived exG2 1 "$0" (set_event "fail" m)) = Some EBadRoom /\
  seen_body (Some (EReply "hi;there")) = "hi;there" /\ seen_error (g_known exG2) (Some EBadRoom) = Some EBadRoom.
Proof.
  cbv zeta. split; [apply ex_linked3|]. split; [exact I|]. split.
  { split; [|left; reflexivity]. right; right. exists ∅. split; [decide_eq|left; reflexivity]. }
  split; [decide_eq|]. split; [vm_compute; reflexivity|]. split; [vm_compute; reflexivity|]. split; vm_compute; reflexivity.
Qed.
(** The hypotheses of the theorems about rooms and disconnecting. *)
Example C50_rooms_example :
  let w := s_w exM3 in
  exists n, c_nss (conn_of w 2) !! "chat" = Some n /\ n_name n = "chat" /\ cs_rooms (view w 2) !! "chat" = Some ∅ /\
  cs_rooms (view w 1) !! "chat" = Some {["open"; "jail"]} /\
  clear_verdict (answer exA2 "chat" (arrived exG2 1 "$0" (join_msg "chat" "closed"))) /\
  answer exA2c "chat" (join_msg "chat" "lobby") = None.
Proof.
  cbv zeta. eexists. split; [vm_compute; reflexivity|]. split; [reflexivity|]. split; [decide_eq|]. split; [decide_eq|].
  split; [|vm_compute; reflexivity]. vm_compute. split; [reflexivity|]. eexists. split; [reflexivity|discriminate].
Qed.

(** C49. If the remote callback (or the lack of one) returns no error, no reply is sent: the Ask keeps waiting. *)
Theorem C49_no_reply : forall G b Ab tb w typ by_,
  let m := received G b typ by_ in
  setting G b Ab -> calm G w b -> unasked G w b m ->
  ~ In (m_event m) [OnNamespaceConnect; OnNamespaceDisconnect; OnRoomJoin; OnRoomLeave] ->
  answer Ab (m_namespace m) (set_isLocal false m) = None ->
  exists w' err, exec tb (HandlePayload G b typ by_) w = XDone w' err /\ cs_sent (view w' b) = cs_sent (view w b).
Proof. exact l_C49_no_reply. Qed.
Print Assumptions C49_no_reply.

Example C49_no_reply_example :
  let m := received exG 1 TextMessage "$9;chat;;news;0;0;hello" in
  setting exG 1 exA /\ calm exG (s_w exM) 1 /\ unasked exG (s_w exM) 1 m /\ m_event m = "news" /\
  answer exA (m_namespace m) (set_isLocal false m) = None.
Proof.
  cbv zeta. split; [apply ex_setting|]. split; [apply ex_calm; auto|]. split; [apply ex_unasked; auto|].
  split; vm_compute; reflexivity.
Qed.
