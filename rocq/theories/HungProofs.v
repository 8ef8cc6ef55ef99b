(** * HungProofs.v : C46, DisconnectAll and LeaveAll against the reader. *)
From Coq Require Import ZArith.
From stdpp Require Import gmap strings list relations.
From RecordUpdate Require Import RecordUpdate.
From Verif Require Import Go Errors Message World Lang Code Sem ExecProofs Spec_Conn Spec_View Examples.
From Verif Require Import Logic Spec_App Scenes Spec_Stuck Frame StuckProofs Frozen Hung Spec_Cross CrossProofs.

(*@file Prop_Hung.v
From Coq Require Import ZArith.
From stdpp Require Import gmap strings list relations.
From Verif Require Import Go Errors Message World Lang Code Sem Spec_App Spec_Conn Spec_View Examples Scenes Spec_Stuck Spec_Cross HungProofs.
@*)

Lemma hung_inv G s t u c ch lock : is_Some (w_conns (s_w s) !! c) -> answered_by (s_w s) c ch -> nobody_helps G s t u c ch -> held c t lock (s_w s) -> Hung.Inv c ch t lock (s_w s) ∅.
Proof.
  intros Hc (Ha1 & Ha2 & Ha3 & Ha4) [Ho Hs] Hh. constructor; auto.
  intros x Hx. specialize (Hs x Hx). destruct x; cbn in *; auto.
Qed.

(*@prop C46 is violated by DisconnectAll also with a working socket.  [t] has asked the other side to disconnect a namespace of [c] and waits
    for the answer without deadline; it holds the lock of the namespaces (conn.go:719).  [u] is the reader of [c]: any event, join or leave
    request or connect request that comes before the answer needs that lock for reading (conn.go:576).  Then both wait for ever, whatever else happens: the answer
    is never read. @*)
Lemma l_C46_reader_refuted : forall (G : cfg) (s : sys) (t u : tid) (c : cid) (ch : chid),
  user_app (not_fed c) G -> reachable G s -> is_Some (w_conns (s_w s) !! c) ->
  at_op s t (OSelect ch None) -> answered_by (s_w s) c ch -> rw_writer (c_nsmu (conn_of (s_w s) c)) = Some t ->
  at_op s u (ONsRLock c) -> nobody_helps G s t u c ch ->
  stuck G s t /\ stuck G s u.
Proof.
  intros G s t u c ch HA Hr Hc [kt Ht] Ha Hw [ku Hu] Hn.
  apply (hung_stuck G c ch t None HA s u (ONsRLock c) kt ku Hr Ht Hu); [right; reflexivity|eapply hung_inv; [exact Hc|exact Ha|exact Hn|split; [exact Hc|exact Hw]]|].
  intros t' q Hq Hne Hne'. destruct (proj1 Hn t' q Hq Hne Hne') as (x & -> & Hx). exists x. split; [reflexivity|]. destruct x; exact Hx.
Qed.

(*@prop C46 is violated by LeaveAll in the same way: it holds the lock of the rooms of [n] (conn_namespace.go:131) while it waits for
    the answer of the other side; a join or leave request, or any message whose answer is written to a room of [n], that comes before needs that lock. @*)
Lemma l_C46_reader_rooms_refuted : forall (G : cfg) (s : sys) (t u : tid) (c : cid) (ch : chid) (n : nsref),
  user_app (not_fed c) G -> reachable G s -> is_Some (w_conns (s_w s) !! c) ->
  at_op s t (OSelect ch None) -> answered_by (s_w s) c ch -> n_id n < w_next (s_w s) -> rw_writer (o_mu (ns_of (s_w s) n)) = Some t ->
  at_op s u (ORoomRLock n) \/ at_op s u (ORoomLock n) -> nobody_helps G s t u c ch ->
  stuck G s t /\ stuck G s u.
Proof.
  intros G s t u c ch n HA Hr Hc [kt Ht] Ha Hl Hw Hu Hn.
  assert (Hx : forall t' q, s_th s !! t' = Some q -> t' <> t -> t' <> u -> exists x, q = code G x /\ xstart c ch x).
  { intros t' q Hq Hne Hne'. destruct (proj1 Hn t' q Hq Hne Hne') as (x & -> & Hx). exists x. split; [reflexivity|]. destruct x; exact Hx. }
  assert (HI : Hung.Inv c ch t (Some n) (s_w s) ∅) by (eapply hung_inv; [exact Hc|exact Ha|exact Hn|split; [exact Hl|exact Hw]]).
  destruct Hu as [[ku Hu]|[ku Hu]];
    apply (hung_stuck G c ch t (Some n) HA s u _ kt ku Hr Ht Hu); auto; [right|left]; reflexivity.
Qed.

(** Connection 2 is a client that is connected to "chat" and in room "r".  Then it calls
    DisconnectAll (application goroutine 1) or LeaveAll (2); the server sends an event, or asks it to leave the room,
    before it answers. *)
Definition tangled : cfg := scene true (fun k => match k with
  | 0 => call (AConnect 2 None "chat") | 1 => call (ADisconnectAll 2 None) | 2 => call (ALeaveAll (Some (NsRef 2 "chat" 2)) None)
  | _ => call (AJoinRoom (Some (NsRef 2 "chat" 2)) None "r") end).
Definition tangled_start : list cmd :=
  [Go 0; Act1 (Env (EGo (TUpgrade 1))); Go 1; Act1 Start; Go 0; Go 2;
   Act1 (Env (EGo (TDial 2))); Go 3; Act1 Start; Go 4;
   Act1 (Env (EDeliver 1 TextMessage "M")); Go 2; Act1 (Env (EDeliver 2 TextMessage "Aid-1")); Go 4; Go 3;
   Act1 (Env (EGo (TUser 0))); Go 5; Act1 (Env (EDeliver 2 TextMessage "$0;;;;;;")); Go 4; Go 5;
   Act1 (Env (ETick 1)); Act1 (Env (EGo (TUser 3))); Go 6; Act1 (Env (EDeliver 2 TextMessage "$1;;;;;;")); Go 4; Go 6; Act1 (Env (ETick 1))].
Definition tangled_run : list cmd := tangled_start ++
  [Act1 (Env (EGo (TUser 1))); Go 7; Act1 (Env (EDeliver 2 TextMessage ";chat;;echo;0;0;hi")); Go 4; Act1 (Env (EDeliver 2 TextMessage "$2;;;;;;")); Go 4; Go 7].
Definition tangled_rooms_run : list cmd := tangled_start ++
  [Act1 (Env (EGo (TUser 2))); Go 7; Act1 (Env (EDeliver 2 TextMessage "7;chat;r;_OnRoomLeave;0;0;")); Go 4; Act1 (Env (EDeliver 2 TextMessage "$2;;;;;;")); Go 4; Go 7].

Lemma tangled_app : user_app (not_fed 2) tangled.
Proof. apply scene_app. intros [|[|[|k]]]; cbn; auto. Qed.

(*@exl Client 2 is connected to "chat" and calls DisconnectAll.  The server sends an event
    and then the agreement; the client does not get as far as reading the agreement: neither DisconnectAll nor the reader ever goes on. @*)
Lemma x_C46_reader_example : let s := play tangled tangled_run (init tangled) in
  user_app (not_fed 2) tangled /\ reachable tangled s /\
  last (c_out (conn_of (s_w s) 2)) = Some (TextMessage, "$2;chat;;_OnNamespaceDisconnect;0;0;") /\
  c_in (conn_of (s_w s) 2) = [(TextMessage, "$2;;;;;;")] /\ c_closed (conn_of (s_w s) 2) = false /\ s_crash s = None /\
  stuck tangled s 7 /\ stuck tangled s 4.
Proof.
  cbv zeta. set (s := play tangled tangled_run (init tangled)).
  assert (Hr : reachable tangled s) by apply play_reachable.
  split; [exact tangled_app|]. split; [exact Hr|]. do 4 (split; [vm_compute; reflexivity|]).
  apply (l_C46_reader_refuted tangled s 7 4 2 5 tangled_app Hr).
  - apply has_conn_b. vm_compute. reflexivity.
  - at_op_tac.
  - apply answered_b. vm_compute. reflexivity.
  - vm_compute. reflexivity.
  - at_op_tac.
  - apply nobody_list. vm_compute. reflexivity.
Qed.

(*@exl Client 2 has joined "r" of "chat" and calls LeaveAll, while the server asks it to leave
    the room: neither LeaveAll nor the reader ever goes on. @*)
Lemma x_C46_reader_rooms_example : let s := play tangled tangled_rooms_run (init tangled) in
  user_app (not_fed 2) tangled /\ reachable tangled s /\
  last (c_out (conn_of (s_w s) 2)) = Some (TextMessage, "$2;chat;r;_OnRoomLeave;0;0;") /\
  c_in (conn_of (s_w s) 2) = [(TextMessage, "$2;;;;;;")] /\ c_closed (conn_of (s_w s) 2) = false /\ s_crash s = None /\
  stuck tangled s 7 /\ stuck tangled s 4.
Proof.
  cbv zeta. set (s := play tangled tangled_rooms_run (init tangled)).
  assert (Hr : reachable tangled s) by apply play_reachable.
  split; [exact tangled_app|]. split; [exact Hr|]. do 4 (split; [vm_compute; reflexivity|]).
  apply (l_C46_reader_rooms_refuted tangled s 7 4 2 5 (NsRef 2 "chat" 2) tangled_app Hr).
  - apply has_conn_b. vm_compute. reflexivity.
  - at_op_tac.
  - apply answered_b. vm_compute. reflexivity.
  - apply Nat.ltb_lt. vm_compute. reflexivity.
  - vm_compute. reflexivity.
  - first [left; at_op_tac|right; at_op_tac].
  - apply nobody_list. vm_compute. reflexivity.
Qed.
