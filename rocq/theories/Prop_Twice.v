(** * Prop_Twice.v : property theorems (generated by tools/genprops.py from TwiceProofs.v).
    Every proof is the lemma of the same name in TwiceProofs.v. *)
From Coq Require Import ZArith.
From stdpp Require Import gmap strings list relations.
From RecordUpdate Require Import RecordUpdate.
From Verif Require Import Go Errors Message World Lang Code Sem Spec_Conn Spec_View Examples Scenes TwiceProofs.
From Verif Require Import TwiceProofs.

(** C48 is violated.  A Connect waits for its reply.  Meanwhile the same namespace has been connected
    by a request of the other side, and rooms may have been joined.  When the reply comes, the waiting Connect
    connects the namespace a second time: it returns an NSConn of its own, the connected event fires again, and the namespace has
    no rooms any more, although no room was left. *)
Theorem C48_refuted : forall G c A t x ns w,
  setting G c A -> calm G w c -> ctx_live w x -> c_inside (conn_of w c) = false ->
  (g_client G c = false -> c_acked (conn_of w c) = true) ->
  cs_rooms (view w c) !! ns = None -> is_Some (A !! ns) -> answer A ns (hello ns) = None ->
  exists ch w1 k, exec t (Connect G c x ns) w = XBlocked w1 (OSelect ch x) k /\
    forall w2 reply rooms, quiet G w2 c -> kept c w1 w2 -> c_id (conn_of w2 c) = c_id (conn_of w c) ->
      cs_rooms (view w2 c) !! ns = Some rooms ->
      select_reply w2 ch x = [inr reply] -> m_err reply = None ->
      exists w3 n, exec t (Do (OSelect ch x) k) w2 = XDone w3 (Some n, None) /\
        cs_rooms (view w3 c) !! ns = Some ∅ /\
        cs_fired (view w3 c) = cs_fired (fire A ns (set_event OnNamespaceConnected (hello ns)) (view w2 c)) .
Proof. exact l_C48_refuted. Qed.
Print Assumptions C48_refuted.

(** C48 is violated by two goroutines of a client that connect to the same namespace at the same time: both requests are answered
    and both calls return; the connected event has run for two different NSConns, and the second one has replaced the
    first: the room the first goroutine had joined is gone, and no callback ran for that. *)
Theorem C48_twice_refuted : exists G c s s' n1 n2,
  reachable G s /\ steps G s s' /\ g_client G c = true /\
  runs (w_log (s_w s)) = [(OnRoomJoin, n1); (OnNamespaceConnected, n1)] /\
  cs_rooms (view (s_w s) c) = {["chat" := {["r"]}]} /\
  runs (w_log (s_w s')) = [(OnNamespaceConnected, n2); (OnRoomJoin, n1); (OnNamespaceConnected, n1)] /\ n1 <> n2 /\
  cs_rooms (view (s_w s') c) = {["chat" := ∅]} /\ s_th s' !! 3 = None /\ s_th s' !! 4 = None.
Proof. exact l_C48_twice_refuted. Qed.
Print Assumptions C48_twice_refuted.

(** The client of exM connects to "chat" while the server does the same; then the reply comes. *)
Definition C48_crossing : option (world * world * option nsref * option gerr) :=
  match exec 9 (Connect exG 2 None "chat") (s_w exM) with
  | XBlocked w1 (OSelect ch x) k =>
      match exec 5 (HandlePayload exG 2 TextMessage "1;chat;;_OnNamespaceConnect;0;0;") w1 with
      | XDone w2 None =>
        match exec 5 (HandlePayload exG 2 TextMessage "$0;;;;;;") w2 with
        | XDone w2' None =>
          match exec 9 (Do (OSelect ch x) k) w2' with
          | XDone w3 (n, e) => Some (w2', w3, n, e)
          | _ => None end
        | _ => None end
      | _ => None end
  | _ => None end.
Example C48_example :
  let w := s_w exM in
  setting exG 2 exA /\ calm exG w 2 /\ ctx_live w None /\ c_inside (conn_of w 2) = false /\ g_client exG 2 = true /\
  cs_rooms (view w 2) !! "chat" = None /\ is_Some (exA !! "chat") /\ answer exA "chat" (hello "chat") = None /\
  option_map (fun r => cs_rooms (view (fst (fst (fst r))) 2)) C48_crossing = Some {["chat" := ∅]} /\
  option_map (fun r => map (fun f => snd (fst f)) (cs_fired (view (fst (fst (fst r))) 2))) C48_crossing = Some [OnNamespaceConnected] /\
  option_map (fun r => map (fun f => snd (fst f)) (cs_fired (view (snd (fst (fst r))) 2))) C48_crossing = Some [OnNamespaceConnected; OnNamespaceConnected] /\
  option_map (fun r => (option_map n_name (snd (fst r)), snd r)) C48_crossing = Some (Some "chat", None) /\
  option_map (fun r => cs_rooms (view (snd (fst (fst r))) 2)) C48_crossing = Some {["chat" := ∅]}.
Proof.
  cbv zeta. split; [apply ex_setting|]. split; [apply ex_calm; auto|]. split; [exact I|].
  split; [vm_compute; reflexivity|]. split; [reflexivity|]. split; [vm_compute; reflexivity|]. split; [eexists; vm_compute; reflexivity|].
  split; [vm_compute; reflexivity|]. split; [decide_eq|]. split; [vm_compute; reflexivity|]. split; [vm_compute; reflexivity|]. split; [vm_compute; reflexivity|]. decide_eq.
Qed.
