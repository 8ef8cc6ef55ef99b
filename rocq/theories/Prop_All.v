(** * Prop_All.v : property theorems (generated by tools/genprops.py from AllProofs.v).
    Every proof is the lemma of the same name in AllProofs.v. *)
From Coq Require Import ZArith.
From stdpp Require Import gmap strings list relations.
From RecordUpdate Require Import RecordUpdate.
From Verif Require Import Go Errors Message World Lang Code Sem Spec_Conn Spec_View Spec_Wire Spec_All Examples CastProofs ApiProofs.
From Verif Require Import AllProofs.

(** C62. LeaveAll, called outside of a callback on a connected NSConn of an undisturbed connection, in a conversation
    with any peer (any replies): it does exactly what [leave_all] of Spec_All.v does with its rooms in some order: one
    request per room, each left only after the peer and then the own callback agreed, and the first refusal ends the
    call.  Nothing of other connections is touched, and when it ends the connection is undisturbed again (no lock is
    kept). *)
Theorem C62_leave_all : forall G c A t x n w replies,
  setting G c A -> quiet G w c -> ctx_live w x -> c_inside (conn_of w c) = false -> c_nss (conn_of w c) !! n_name n = Some n ->
  exists order rs w', cs_rooms (view w c) !! n_name n = Some rs /\ Permutation order (elements rs) /\
    let r := leave_all A (genWait (g_client G c) (w_now w)) (n_name n) order replies (view w c) in
    view w' c = fst r /\ others c w w' /\
    converse t (LeaveAll G (Some n) x) w replies =
      match snd r with
      | None => Waiting w'
      | Some (e, unused) => Ended w' e unused
      end /\
    (snd r <> None -> quiet G w' c /\ c_nss (conn_of w' c) = c_nss (conn_of w c)).
Proof. exact l_C62_leave_all. Qed.
Print Assumptions C62_leave_all.

(** C62. So, when LeaveAll returns: the rooms that are joined then were joined before, other namespaces are as they
    were; the error is nil exactly if no room is left joined; and an error is that of the last reply, all earlier
    replies having agreed, or that of the own OnRoomLeave callback, about a room that stays joined. *)
Theorem C62_leave_result : forall G c A t x n w replies w' e unused,
  setting G c A -> quiet G w c -> ctx_live w x -> c_inside (conn_of w c) = false -> c_nss (conn_of w c) !! n_name n = Some n ->
  converse t (LeaveAll G (Some n) x) w replies = Ended w' e unused ->
  exists rs rs', cs_rooms (view w c) !! n_name n = Some rs /\ cs_rooms (view w' c) = <[n_name n := rs']> (cs_rooms (view w c)) /\
    rs' ⊆ rs /\ (e = None <-> rs' = ∅) /\
    match e with
    | None => True
    | Some e => exists used room r, replies = used ++ r :: unused /\ (forall u, u ∈ used -> m_err u = None) /\ room ∈ rs' /\
        (m_err r = Some e \/ m_err r = None /\ answer A (n_name n) (leave_all_msg (n_name n) room) = Some e)
    end.
Proof. exact l_C62_leave_result. Qed.
Print Assumptions C62_leave_result.

(** C62. If the own callback lets every room go and the peer agrees as often as there are rooms, LeaveAll returns nil. *)
Theorem C62_leave_agreed : forall G c A t x n w replies rs,
  setting G c A -> quiet G w c -> ctx_live w x -> c_inside (conn_of w c) = false -> c_nss (conn_of w c) !! n_name n = Some n ->
  cs_rooms (view w c) !! n_name n = Some rs ->
  (forall room, room ∈ rs -> answer A (n_name n) (leave_all_msg (n_name n) room) = None) ->
  length replies = size rs -> (forall r, r ∈ replies -> m_err r = None) ->
  exists w', converse t (LeaveAll G (Some n) x) w replies = Ended w' None [] /\ quiet G w' c.
Proof. exact l_C62_leave_agreed. Qed.
Print Assumptions C62_leave_agreed.

(** C62. DisconnectAll, likewise: it does exactly what [disconnect_all] of Spec_All.v does with the connected
    namespaces in some order: one request per namespace, each left with all its rooms only after the peer agreed; the
    first refusal ends the call. *)
Theorem C62_disconnect_all : forall G c A t x w replies,
  setting G c A -> quiet G w c -> ctx_live w x -> c_inside (conn_of w c) = false ->
  exists order w', Permutation order.*1 (elements (dom (cs_rooms (view w c)))) /\
    Forall (fun e => exists rs, cs_rooms (view w c) !! fst e = Some rs /\ Permutation (snd e) (elements rs)) order /\
    let r := disconnect_all (role_of G c w) A (genWait (g_client G c) (w_now w)) order replies (view w c) in
    view w' c = fst r /\ others c w w' /\
    converse t (DisconnectAll G c x) w replies =
      match snd r with
      | None => Waiting w'
      | Some (e, unused) => Ended w' e unused
      end /\
    (snd r <> None -> quiet G w' c).
Proof. exact l_C62_disconnect_all. Qed.
Print Assumptions C62_disconnect_all.

(** C62. So, when DisconnectAll returns: the namespaces that are connected then were connected before, with the same
    rooms; the error is nil exactly if none is; an error is that of the last reply, all earlier ones having agreed; and
    every agreement disconnected one namespace. *)
Theorem C62_disconnect_result : forall G c A t x w replies w' e unused,
  setting G c A -> quiet G w c -> ctx_live w x -> c_inside (conn_of w c) = false ->
  converse t (DisconnectAll G c x) w replies = Ended w' e unused ->
  cs_rooms (view w' c) ⊆ cs_rooms (view w c) /\ (e = None <-> cs_rooms (view w' c) = ∅) /\
    match e with
    | None => length replies = size (cs_rooms (view w c)) + length unused
    | Some e => exists used r, replies = used ++ r :: unused /\ (forall u, u ∈ used -> m_err u = None) /\ m_err r = Some e /\
        size (cs_rooms (view w c)) = size (cs_rooms (view w' c)) + length used
    end.
Proof. exact l_C62_disconnect_result. Qed.
Print Assumptions C62_disconnect_result.

(** C62. If the peer agrees as often as there are namespaces, DisconnectAll returns nil. *)
Theorem C62_disconnect_agreed : forall G c A t x w replies,
  setting G c A -> quiet G w c -> ctx_live w x -> c_inside (conn_of w c) = false ->
  length replies = size (cs_rooms (view w c)) -> (forall r, r ∈ replies -> m_err r = None) ->
  exists w', converse t (DisconnectAll G c x) w replies = Ended w' None [] /\ quiet G w' c /\ cs_rooms (view w' c) = ∅.
Proof. exact l_C62_disconnect_agreed. Qed.
Print Assumptions C62_disconnect_agreed.

(** C46, the part that holds. A LeaveAll outside of a callback on an undisturbed connection, whose reader is free to deliver the answers,
    ends if there are as many answers (of any kind) as rooms, and leaves the connection undisturbed, with no lock taken. *)
Theorem C46_leave_partial : forall G c A t x n w replies rs,
  setting G c A -> quiet G w c -> ctx_live w x -> c_inside (conn_of w c) = false -> c_nss (conn_of w c) !! n_name n = Some n ->
  cs_rooms (view w c) !! n_name n = Some rs -> size rs <= length replies ->
  exists w' e unused, converse t (LeaveAll G (Some n) x) w replies = Ended w' e unused /\ quiet G w' c.
Proof. exact l_C46_leave_partial. Qed.
Print Assumptions C46_leave_partial.

(** C46, likewise: a DisconnectAll ends if there are as many answers as namespaces. *)
Theorem C46_disconnect_partial : forall G c A t x w replies,
  setting G c A -> quiet G w c -> ctx_live w x -> c_inside (conn_of w c) = false ->
  size (cs_rooms (view w c)) <= length replies ->
  exists w' e unused, converse t (DisconnectAll G c x) w replies = Ended w' e unused /\ quiet G w' c.
Proof. exact l_C46_disconnect_partial. Qed.
Print Assumptions C46_disconnect_partial.

(** C62. In the reachable world [exM], connection 1 is in rooms "open" and "jail" of "chat"; its callback does not let go of
    "jail".  With a peer that agrees twice, LeaveAll returns the callback's error and "jail" stays joined; the
    hypotheses of the theorems hold.  DisconnectAll with a peer that agrees once ends without any namespace; with a
    peer that refuses, it returns the peer's error and everything stays. *)
Example C62_example :
  let w := s_w exM in let n := NsRef 1 "chat" 1 in
  setting exG 1 exA /\ quiet exG w 1 /\ ctx_live w None /\ c_inside (conn_of w 1) = false /\ c_nss (conn_of w 1) !! n_name n = Some n /\
  cs_rooms (view w 1) = {["chat" := {["open"; "jail"]}]} /\
  match converse 50 (LeaveAll exG (Some n) None) w [no_message; no_message] with
  | Ended w' e _ => e = Some (EUser 2 "no way out") /\ exists rs, cs_rooms (view w' 1) = {["chat" := rs]} /\ "jail" ∈ rs
  | _ => False
  end /\
  match converse 50 (DisconnectAll exG 1 None) w [no_message; no_message] with
  | Ended w' e u => e = None /\ u = [no_message] /\ cs_rooms (view w' 1) = ∅
  | _ => False
  end /\
  match converse 50 (DisconnectAll exG 1 None) w [set_err (Some EBadRoom) no_message] with
  | Ended w' e u => e = Some EBadRoom /\ cs_rooms (view w' 1) = {["chat" := {["open"; "jail"]}]}
  | _ => False
  end /\
  match converse 50 (DisconnectAll exG 1 None) w [] with Waiting _ => True | _ => False end.
Proof.
  cbn zeta. split; [apply ex_setting|]. split; [apply quietb_ok; vm_compute; reflexivity|]. split; [exact Logic.I|].
  split; [vm_compute; reflexivity|]. split; [vm_compute; reflexivity|]. split; [decide_eq|].
  split.
  { assert (H : match converse 50 (LeaveAll exG (Some (NsRef 1 "chat" 1)) None) (s_w exM) [no_message; no_message] with
      | Ended w' e _ => e = Some (EUser 2 "no way out") /\ (bool_decide (cs_rooms (view w' 1) = {["chat" := {["jail"]}]}) ||
          bool_decide (cs_rooms (view w' 1) = {["chat" := {["open"; "jail"]}]})) = true
      | _ => False end) by (vm_compute; split; reflexivity).
    destruct (converse 50 (LeaveAll exG (Some (NsRef 1 "chat" 1)) None) (s_w exM) [no_message; no_message]) as [w' e u| |]; [|exact H|exact H].
    destruct H as [H1 H2]. split; [exact H1|]. apply orb_true_iff in H2 as [H2|H2]; apply bool_decide_eq_true in H2; rewrite H2;
      eexists; (split; [reflexivity|]); set_solver. }
  split.
  { assert (H : match converse 50 (DisconnectAll exG 1 None) (s_w exM) [no_message; no_message] with
      | Ended w' e u => e = None /\ u = [no_message] /\ bool_decide (cs_rooms (view w' 1) = ∅) = true
      | _ => False end) by (vm_compute; repeat split; reflexivity).
    destruct (converse 50 (DisconnectAll exG 1 None) (s_w exM) [no_message; no_message]) as [w' e u| |]; [|exact H|exact H].
    destruct H as (H1 & H2 & H3). apply bool_decide_eq_true in H3. auto. }
  split.
  { assert (H : match converse 50 (DisconnectAll exG 1 None) (s_w exM) [set_err (Some EBadRoom) no_message] with
      | Ended w' e u => e = Some EBadRoom /\ bool_decide (cs_rooms (view w' 1) = {["chat" := {["open"; "jail"]}]}) = true
      | _ => False end) by (vm_compute; repeat split; reflexivity).
    destruct (converse 50 (DisconnectAll exG 1 None) (s_w exM) [set_err (Some EBadRoom) no_message]) as [w' e u| |]; [|exact H|exact H].
    destruct H as (H1 & H3). apply bool_decide_eq_true in H3. auto. }
  vm_compute. exact Logic.I.
Qed.
