(** * Prop_Local.v : property theorems (generated by tools/genprops.py from LocalProofs.v).
    Every proof is the lemma of the same name in LocalProofs.v. *)
From Coq Require Import ZArith.
From stdpp Require Import gmap strings list relations.
From RecordUpdate Require Import RecordUpdate.
From Verif Require Import Go Errors Message World Lang Code Sem Spec_Conn Spec_View Spec_Wire Examples.
From Verif Require Import LocalProofs.

(** C22. Connect.  Already connected: nothing happens.  Undeclared namespace, or a local callback that
    refuses: an error, membership unchanged, nothing sent.  Otherwise one request is sent and the call waits;
    when the reply comes the namespace is connected (with no rooms) exactly if the reply carries no
    error, and nothing changes if it does (or if the context ends first). *)
Theorem C22_connect : forall G c A t x ns w,
  setting G c A -> calm G w c -> ctx_live w x -> c_inside (conn_of w c) = false ->
  (g_client G c = false -> c_acked (conn_of w c) = true) ->
  let s := view w c in
  match cs_rooms s !! ns, A !! ns, answer A ns (hello ns) with
  | Some _, _, _ => exists n w', c_nss (conn_of w c) !! ns = Some n /\ exec t (Connect G c x ns) w = XDone w' (Some n, None) /\
                      quiet G w' c /\ others c w w' /\ view w' c = s
  | None, None, _ => exists w', exec t (Connect G c x ns) w = XDone w' (None, Some EBadNamespace) /\
                      quiet G w' c /\ others c w w' /\ view w' c = s
  | None, Some _, Some e => exists w', exec t (Connect G c x ns) w = XDone w' (None, Some e) /\
                      quiet G w' c /\ others c w w' /\ view w' c = fire A ns (hello ns) s
  | None, Some _, None =>
      asks G c t x None (Connect G c x ns) w (hello ns) (fire A ns (hello ns) s) (fun r s2 b s3 =>
        match verdict r with
        | Some e => b = (None, Some e) /\ s3 = s2
        | None => (exists n, b = (Some n, None) /\ n_name n = ns) /\ s3 = connected_here (role_of G c w) A ns s2
        end)
  end.
Proof. exact l_C22_connect. Qed.
Print Assumptions C22_connect.

(** The client of exM connects to "chat", the peer agrees. *)
Definition C22_connecting : option (world * world * option nsref * option gerr) :=
  match exec 9 (Connect exG 2 None "chat") (s_w exM) with
  | XBlocked w1 (OSelect ch x) k =>
      match exec 5 (HandlePayload exG 2 TextMessage "$0;;;;;;") w1 with
      | XDone w2 None => match exec 9 (Do (OSelect ch x) k) w2 with
                         | XDone w3 (n, e) => Some (w1, w3, n, e)
                         | _ => None end
      | _ => None end
  | _ => None end.
Example C22_connect_example :
  let w := s_w exM in
  setting exG 2 exA /\ calm exG w 2 /\ ctx_live w None /\ c_inside (conn_of w 2) = false /\ g_client exG 2 = true /\
  cs_rooms (view w 2) !! "chat" = None /\ is_Some (exA !! "chat") /\ answer exA "chat" (hello "chat") = None /\
  option_map (fun r => cs_sent (view (fst (fst (fst r))) 2)) C22_connecting =
    Some (cs_sent (view w 2) ++ [(TextMessage, "$0;chat;;_OnNamespaceConnect;0;0;")]) /\
  option_map (fun r => (option_map n_name (snd (fst r)), snd r)) C22_connecting = Some (Some "chat", None) /\
  option_map (fun r => cs_rooms (view (snd (fst (fst r))) 2)) C22_connecting = Some (<["chat" := ∅]> (cs_rooms (view w 2))).
Proof.
  cbv zeta. split; [apply ex_setting|]. split; [apply ex_calm; auto|]. split; [exact I|].
  split; [vm_compute; reflexivity|]. split; [reflexivity|]. split; [vm_compute; reflexivity|]. split; [eexists; vm_compute; reflexivity|].
  split; [vm_compute; reflexivity|]. split; [vm_compute; reflexivity|]. split; [vm_compute; reflexivity|]. decide_eq.
Qed.

(** C22. Disconnect of a connected namespace: one request is sent; if the reply carries no error the
    namespace goes, after the forced leave callbacks of its rooms; otherwise nothing changes. *)
Theorem C22_disconnect : forall G c A t x n w,
  setting G c A -> quiet G w c -> ctx_live w x -> c_inside (conn_of w c) = false ->
  c_nss (conn_of w c) !! n_name n = Some n ->
  asks G c t x (Some n) (Disconnect G (Some n) x) w (goodbye (n_name n)) (view w c) (fun r s2 b s3 =>
    b = verdict r /\
    match verdict r with
    | Some _ => s3 = s2
    | None => exists order rs, cs_rooms s2 !! n_name n = Some rs /\ Permutation order (elements rs) /\
                s3 = disconnected_here (role_of G c w) A (n_name n) order s2 /\
                cs_rooms s3 = delete (n_name n) (cs_rooms s2)
    end).
Proof. exact l_C22_disconnect. Qed.
Print Assumptions C22_disconnect.

Example C22_disconnect_example :
  let w := s_w exM in
  setting exG 1 exA /\ quiet exG w 1 /\ c_inside (conn_of w 1) = false /\
  exists n, c_nss (conn_of w 1) !! "chat" = Some n /\ n_name n = "chat" /\
  match exec 9 (Disconnect exG (Some n) None) w with
  | XBlocked w1 (OSelect ch x) k =>
      match exec 3 (HandlePayload exG 1 TextMessage "0;chat;;_OnNamespaceDisconnect;1;0;no") w1 with
      | XDone w2 None => match exec 9 (Do (OSelect ch x) k) w2 with
                         | XDone w3 (Some (ENew "no")) => bool_decide (cs_rooms (view w3 1) = cs_rooms (view w 1))
                         | _ => false end
      | _ => false end
  | _ => false end = true.
Proof.
  cbv zeta. split; [apply ex_setting|]. split; [apply ex_calm; auto|]. split; [vm_compute; reflexivity|].
  eexists. split; [vm_compute; reflexivity|]. split; [reflexivity|]. vm_compute. reflexivity.
Qed.

(** C22. JoinRoom in a connected namespace.  Joined already: nothing happens.  Otherwise one request is
    sent; the room is joined exactly if the reply carries no error and then the local callback agrees. *)
Theorem C22_join : forall G c A t x n room w,
  setting G c A -> quiet G w c -> ctx_live w x -> c_inside (conn_of w c) = false ->
  c_nss (conn_of w c) !! n_name n = Some n ->
  (exists rs, cs_rooms (view w c) !! n_name n = Some rs /\ room ∈ rs) /\
     exec t (JoinRoom G (Some n) x room) w = XDone w (Some (n, room), None) \/
  (exists rs, cs_rooms (view w c) !! n_name n = Some rs /\ room ∉ rs) /\
     asks G c t x (Some n) (JoinRoom G (Some n) x room) w (join_msg (n_name n) room) (view w c) (fun r s2 b s3 =>
       match verdict r with
       | Some e => b = (None, Some e) /\ s3 = s2
       | None => let j := joined_here A (n_name n) room s2 in
                 b = (match snd j with None => Some (n, room) | Some _ => None end, snd j) /\ s3 = fst j
       end).
Proof. exact l_C22_join. Qed.
Print Assumptions C22_join.

(** C22. Leave of a room.  Not joined: an error, nothing happens.  Otherwise one request is sent; the room
    is left exactly if the reply carries no error and then the local callback agrees. *)
Theorem C22_leave : forall G c A t x n room w,
  setting G c A -> quiet G w c -> ctx_live w x -> c_inside (conn_of w c) = false ->
  c_nss (conn_of w c) !! n_name n = Some n ->
  (exists rs, cs_rooms (view w c) !! n_name n = Some rs /\ room ∉ rs) /\
     exec t (RoomLeave G n room x) w = XDone w (Some EBadRoom) \/
  (exists rs, cs_rooms (view w c) !! n_name n = Some rs /\ room ∈ rs) /\
     asks G c t x (Some n) (RoomLeave G n room x) w (leave_req (n_name n) room) (view w c) (fun r s2 b s3 =>
       match verdict r with
       | Some e => b = Some e /\ s3 = s2
       | None => b = snd (left_here A (n_name n) room s2) /\ s3 = fst (left_here A (n_name n) room s2)
       end).
Proof. exact l_C22_leave. Qed.
Print Assumptions C22_leave.

(** The peer agrees with leaving "jail" and with joining "closed", the local callbacks do not; "open" is left. *)
Definition C22_try (p : nsref -> prog (option gerr)) (w : world) : option (gmap string (gset string)) :=
  match c_nss (conn_of w 1) !! "chat" with
  | Some n =>
    match exec 9 (p n) w with
    | XBlocked w1 (OSelect ch x) k =>
        match exec 3 (HandlePayload exG 1 TextMessage "0;;;;;;") w1 with
        | XDone w2 None => match exec 9 (Do (OSelect ch x) k) w2 with
                           | XDone w3 _ => Some (cs_rooms (view w3 1))
                           | _ => None end
        | _ => None end
    | _ => None end
  | None => None end.
Example C22_rooms_example : let w := s_w exM in
  setting exG 1 exA /\ quiet exG w 1 /\ c_inside (conn_of w 1) = false /\
  C22_try (fun n => RoomLeave exG n "jail" None) w = Some (cs_rooms (view w 1)) /\
  C22_try (fun n => RoomLeave exG n "open" None) w = Some {["chat" := {["jail"]}]} /\
  C22_try (fun n => bind (JoinRoom exG (Some n) None "closed") (fun r => Ret (snd r))) w = Some (cs_rooms (view w 1)) /\
  C22_try (fun n => bind (JoinRoom exG (Some n) None "new") (fun r => Ret (snd r))) w = Some {["chat" := {["jail"; "open"; "new"]}]}.
Proof.
  cbv zeta. split; [apply ex_setting|]. split; [apply ex_calm; auto|]. split; [vm_compute; reflexivity|].
  split; [decide_eq|]. split; [decide_eq|]. split; decide_eq.
Qed.
