(** * OrderProofs.v : messages are handled in the order of their arrival, each at most once (C56). *)
(*@file Prop_Order.v
From Coq Require Import ZArith Ascii.
From stdpp Require Import gmap strings list relations.
From RecordUpdate Require Import RecordUpdate.
From Verif Require Import Go Errors Message World Lang Code Sem Spec_App Spec_Conn Spec_View Spec_Cross Spec_Order Examples OrderProofs. @*)
From Coq Require Import ZArith Ascii.
From stdpp Require Import gmap strings list relations.
From RecordUpdate Require Import RecordUpdate.
From Verif Require Import Go Errors Message World Lang Code Sem Spec_App Spec_Conn Spec_View Spec_Cross Spec_Order Examples Scenes Order Shake.

Lemma user_code_any {X} allowed (p : prog X) : user_code allowed p -> user_code (fun _ => True) p.
Proof. induction p as [x|o k IH|a k IH|x]; cbn; auto; [destruct o; auto|intros [_ H]; auto]. Qed.
Lemma user_app_any allowed G : user_app allowed G -> user_app (fun _ => True) G.
Proof. intros [H1 H2 H3 H4 H5]. constructor; intros; eapply user_code_any; eauto. Qed.
(*@prop C56.  In every schedule of any application that leaves the frames of connection [c] to the library: as long as [c] is
    open, the messages of one kind (text or binary) for which callbacks of ordinary events ran are messages that arrived on
    [c], in the order in which they arrived, and none of them was handled twice. @*)
Lemma l_C56_order : forall G c typ s,
  user_app (not_fed c) G -> reachable G s -> c_closed (conn_of (s_w s) c) = false ->
  sublist (handled c typ (s_w s)) (arrived G c typ (s_w s)).
Proof. intros G c typ s HA Hr Ho. apply (order_main G c typ HA s Hr). exact (shake_main G c (user_app_any _ _ HA) s Hr Ho). Qed.
(*@prop C56.  The same after [c] was closed, unless a second handshake was completed (a frame "M" that the reader takes
    between the reset of the handshake and the end of the socket). @*)
Lemma l_C56_order_closed : forall G c typ s,
  user_app (not_fed c) G -> reachable G s -> shook_hands_once G c (s_w s) ->
  sublist (handled c typ (s_w s)) (arrived G c typ (s_w s)).
Proof. intros G c typ s HA Hr. apply (order_main G c typ HA s Hr). Qed.
(*@prop C56.  In any case, even if the handshake is repeated: no message is invented, and none is handled more often than it
    arrived. @*)
Lemma l_C56_once : forall G c typ s,
  user_app (not_fed c) G -> reachable G s -> handled c typ (s_w s) ⊆+ arrived G c typ (s_w s).
Proof. intros G c typ s HA Hr. apply (order_main G c typ HA s Hr). Qed.
(*@prop C56.  In every schedule of any application, whatever the other side sends: while a connection is open its handshake is
    completed at most once, and never if the connection carries native messages only. @*)
Lemma l_C56_handshake : forall G c s,
  user_app (fun _ => True) G -> reachable G s -> c_closed (conn_of (s_w s) c) = false -> shook_hands_once G c (s_w s).
Proof. intros G c s HA Hr Ho. exact (shake_main G c HA s Hr Ho). Qed.

(** Two frames before the handshake, one of them an event, and two events after it. *)
Definition orderS : sys := play exG
  [Go 0; Act1 (Env (EGo (TUpgrade 1))); Go 1; Act1 Start; Act1 Start; Go 0; Go 2; Go 3; Go 1;
   Act1 (Env (EDeliver 1 TextMessage "$1;chat;;_OnNamespaceConnect;0;0;")); Act1 (Env (EDeliver 1 TextMessage ";chat;;echo;0;0;one")); Go 3;
   Act1 (Env (EDeliver 1 TextMessage "M")); Act1 (Env (EDeliver 1 TextMessage ";chat;;echo;0;0;two")); Go 3;
   Act1 (Env (EDeliver 1 BinaryMessage ";chat;;echo;0;0;bin")); Act1 (Env (EDeliver 1 TextMessage ";chat;;fail;0;0;three")); Go 3] (init exG).
(*@exl C56. A run with an event before the handshake and events of both kinds after it. @*)
Lemma x_C56_example :
  user_app (not_fed 1) exG /\ reachable exG orderS /\ shook_hands_once exG 1 (s_w orderS) /\
  map m_body (handled 1 TextMessage (s_w orderS)) = ["one"; "two"; "three"] /\ map m_body (handled 1 BinaryMessage (s_w orderS)) = ["bin"] /\
  length (arrived exG 1 TextMessage (s_w orderS)) = 5.
Proof.
  split; [constructor; try discriminate; try (intros; exact Logic.I); intros; eapply exA_user; eassumption|].
  split; [apply play_reachable|]. split; [vm_compute; lia|]. vm_compute. auto.
Qed.

(** A client that got frames before its handshake closes the connection; the server sends "M" before the socket is closed. *)
Definition againG : cfg := scene false (fun _ => call (AClose 2)).
Definition againS : sys := play againG
  [Go 0; Act1 (Env (EGo (TDial 2))); Go 1; Act1 Start;
   Act1 (Env (EDeliver 2 TextMessage "$1;chat;;_OnNamespaceConnect;0;0;")); Act1 (Env (EDeliver 2 TextMessage ";chat;;echo;0;0;one")); Go 2;
   Act1 (Env (EDeliver 2 TextMessage "Aid-1")); Go 2; Go 1;
   Act1 (Env (EDeliver 2 TextMessage "$2;chat;;_OnNamespaceConnect;0;0;")); Act1 (Env (EDeliver 2 TextMessage ";chat;;echo;0;0;two")); Go 2;
   Act1 (Env (EGo (TUser 0)));
   Act1 (Step 3); Act1 (Step 3); Act1 (Step 3); Act1 (Step 3); Act1 (Step 3); Act1 (Step 3);
   Act1 (Step 3); Act1 (Step 3); Act1 (Step 3); Act1 (Step 3); Act1 (Step 3); Act1 (Step 3);
   Act1 (Env (EDeliver 2 TextMessage "M")); Go 2] (init againG).
(*@prop C56.  Without that premise the order is lost: while Close is on its way, a second handshake makes the reader handle a
    message "one" that had arrived before "two" and had been put aside, after "two" was handled; [c] had joined the namespace
    again by then. @*)
Lemma l_C56_order_refuted : exists G c typ s,
  user_app (not_fed c) G /\ reachable G s /\ ~ sublist (handled c typ (s_w s)) (arrived G c typ (s_w s)) /\
  map m_body (handled c typ (s_w s)) = ["two"; "one"].
Proof.
  exists againG, 2, TextMessage, againS. split; [apply scene_app; intros k; cbn; auto|]. split; [apply play_reachable|].
  assert (Hh : map m_body (handled 2 TextMessage (s_w againS)) = ["two"; "one"]) by (vm_compute; reflexivity).
  assert (Ha : map m_body (arrived againG 2 TextMessage (s_w againS)) = [""; "one"; ""; ""; "two"; ""]) by (vm_compute; reflexivity).
  split; [|exact Hh]. intros H. apply (map_sublist m_body) in H. rewrite Hh, Ha in H. clear Hh Ha.
  repeat match goal with H : sublist _ _ |- _ => inversion H; subst; clear H end.
Qed.
