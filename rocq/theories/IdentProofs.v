(** * IdentProofs.v : the identity of a connection (C61). *)
(*@file Prop_Ident.v
From Coq Require Import ZArith Ascii.
From stdpp Require Import gmap strings list relations.
From RecordUpdate Require Import RecordUpdate.
From Verif Require Import Go Errors Message World Lang Code Sem Spec_App Spec_Conn Spec_View Spec_Order Spec_Ident Examples Scenes IdentProofs. @*)
From Coq Require Import ZArith Ascii.
From stdpp Require Import gmap strings list relations.
From RecordUpdate Require Import RecordUpdate.
From Verif Require Import Go Errors Message World Lang Code Sem Spec_App Spec_Conn Spec_View Spec_Order Spec_Ident Examples Scenes Shake Ident.

(*@prop C61.  In every schedule of any application, whatever the other side sends: once the handshake of a connection was
    completed, its ID never changes while the connection is open. @*)
Lemma l_C61_fixed : forall G c s s',
  user_app (fun _ => True) G -> reachable G s -> 0 < handshakes c (s_w s) -> steps G s s' ->
  c_closed (conn_of (s_w s') c) = false -> c_id (conn_of (s_w s') c) = c_id (conn_of (s_w s) c).
Proof. intros G c s s' HA. apply id_stays, HA. Qed.
(*@prop C61 (missing: on a server, the ID may be one that the other side sent, see C61_refuted).  In every schedule of any
    application: the ID of a connection is the one that this side gave to it (the ID generator of a server; a client gives
    none), or the other side sent it in a frame "A".  Before the connection is made it has none. @*)
Lemma l_C61_origin_partial : forall G c s,
  user_app (fun _ => True) G -> reachable G s ->
  let i := c_id (conn_of (s_w s) c) in
  (i = "" \/ i = own_id G c \/ told c i (s_w s)) /\
  (LUpgraded c None ∈ w_log (s_w s) -> i = own_id G c \/ told c i (s_w s)).
Proof. intros G c s HA Hr. exact (ident_main G c HA s Hr). Qed.
(*@prop C61.  In every schedule of any application: a server side connection to which the other side sent no frame that
    starts with "A" has the ID that the server's ID generator made for it, from when Upgrade has succeeded, for ever. @*)
Lemma l_C61_server : forall G c s,
  user_app (fun _ => True) G -> reachable G s -> g_client G c = false -> LUpgraded c None ∈ w_log (s_w s) ->
  (forall i, ~ told c i (s_w s)) -> c_id (conn_of (s_w s) c) = g_connid G c.
Proof.
  intros G c s HA Hr Hc Hu Hn. destruct (ident_main G c HA s Hr) as [_ H]. destruct (H Hu) as [E|E]; [|destruct (Hn _ E)].
  unfold own_id in E. rewrite Hc in E. exact E.
Qed.
(*@prop C61.  A client to which the server sent only one ID has no ID or that one. @*)
Lemma l_C61_client : forall G c i s,
  user_app (fun _ => True) G -> reachable G s -> g_client G c = true ->
  (forall j, told c j (s_w s) -> j = i) -> c_id (conn_of (s_w s) c) = "" \/ c_id (conn_of (s_w s) c) = i.
Proof.
  intros G c i s HA Hr Hc Hn. destruct (ident_main G c HA s Hr) as [H _]. unfold own_id in H. rewrite Hc in H. destruct H as [H|[H|H]]; auto.
Qed.

Lemma play_app G l1 l2 s : play G (l1 ++ l2) s = play G l2 (play G l1 s).
Proof. revert s; induction l1 as [|[a|t] l1 IH]; intros s; cbn [play List.app]; [reflexivity|apply IH..]. Qed.
(** The server gives its connections 1 and 3 different IDs.  The application sends a message to the connection with the ID of 1. *)
Definition stealG : cfg := {|
  g_client := fun c => Nat.eqb c 2;
  g_namespaces := fun _ => lift exA;
  g_connid := fun c => if Nat.eqb c 1 then "id-1" else "id-3";
  g_uuid := "u";
  g_ptr := fun c => "0x1";
  g_known := knownErrors0;
  g_exch := None;
  g_sync := false;
  g_firealways := false;
  g_onconnect := None;
  g_ondisconnect := None;
  g_do := fun _ _ => Ret tt;
  g_user := fun _ => call (ABroadcast None [set_to "id-1" hello_msg]) |}.
Definition stealL : list cmd :=
  [Go 0; Act1 (Env (EGo (TUpgrade 1))); Go 1; Act1 Start; Act1 Start; Go 0; Go 2; Go 3; Go 1; Act1 (Env (EDeliver 1 TextMessage "M")); Go 3;
   Act1 (Env (EGo (TUpgrade 3))); Go 4; Act1 Start; Act1 Start; Go 0; Go 5; Go 6; Go 4].
Definition honestS : sys := play stealG stealL (init stealG).
Definition stealS : sys := play stealG (stealL ++
  [Act1 (Env (EDeliver 3 TextMessage "Aid-1")); Act1 (Env (EDeliver 3 TextMessage "$1;chat;;_OnNamespaceConnect;0;0;")); Go 6;
   Act1 (Env (EGo (TUser 0))); Go 7; Go 2; Go 5]) (init stealG).
Lemma stealG_app : user_app (fun _ => True) stealG.
Proof. constructor; try discriminate; try (intros; cbn; auto; fail). intros. eapply exA_user; eassumption. Qed.
Lemma steal_steps : steps stealG honestS stealS.
Proof. unfold stealS, honestS. rewrite play_app. apply play_steps. Qed.
Lemma steal_reachable : reachable stealG stealS.
Proof. apply play_reachable. Qed.
Lemma honest_reachable : reachable stealG honestS.
Proof. apply play_reachable. Qed.
Definition up (c : cid) (l : list event) : bool := existsb (fun e => match e with LUpgraded c' None => Nat.eqb c' c | _ => false end) l.
Lemma up_in c l : up c l = true -> LUpgraded c None ∈ l.
Proof. intros H. apply existsb_exists in H as (e & H1 & H2). apply elem_of_list_In. destruct e; try discriminate H2. destruct err; [discriminate H2|]. apply Nat.eqb_eq in H2 as <-. exact H1. Qed.
#[local] Opaque stealS honestS.
(*@prop C61.  The code violates C61 on a server: connection 3 sends the frame "A" with the ID of connection 1.  Both are open,
    their handshakes are completed, and both have that ID, though the server gave them different ones; a message that the
    application sends to this ID alone reaches connection 3. @*)
Lemma l_C61_refuted : exists G c c' s m,
  user_app (fun _ => True) G /\ reachable G s /\ c <> c' /\ g_client G c = false /\ g_client G c' = false /\ g_connid G c <> g_connid G c' /\
  c_closed (conn_of (s_w s) c) = false /\ c_closed (conn_of (s_w s) c') = false /\ LUpgraded c' None ∈ w_log (s_w s) /\
  c_id (conn_of (s_w s) c') = g_connid G c /\ c_id (conn_of (s_w s) c) = g_connid G c /\
  m_to m = g_connid G c /\ m_body m = "hi" /\ g_user G 0 = call (ABroadcast None [m]) /\
  In (TextMessage, ";chat;;echo;0;0;hi") (c_out (conn_of (s_w s) c')).
Proof.
  exists stealG, 1, 3, stealS, (set_to "id-1" hello_msg). split; [apply stealG_app|]. split; [apply steal_reachable|].
  split; [discriminate|]. split; [reflexivity|]. split; [reflexivity|]. split; [discriminate|].
  split; [vm_compute; reflexivity|]. split; [vm_compute; reflexivity|].
  split; [apply up_in; vm_compute; reflexivity|].
  split; [vm_compute; reflexivity|]. split; [vm_compute; reflexivity|]. split; [reflexivity|]. split; [reflexivity|]. split; [reflexivity|].
  vm_compute. auto.
Qed.
(*@exl C61. The same server before: connection 1 has completed its handshake, 3 has not; nobody sent "A". @*)
Lemma x_C61_example :
  user_app (fun _ => True) stealG /\ reachable stealG honestS /\ handshakes 1 (s_w honestS) = 1 /\ steps stealG honestS stealS /\
  c_closed (conn_of (s_w stealS) 1) = false /\ LUpgraded 1 None ∈ w_log (s_w honestS) /\ LUpgraded 3 None ∈ w_log (s_w honestS) /\
  c_got (conn_of (s_w honestS) 1) = [(TextMessage, "M")] /\ c_got (conn_of (s_w honestS) 3) = [] /\ c_id (conn_of (s_w honestS) 1) = "id-1" /\
  c_id (conn_of (s_w honestS) 3) = "id-3" /\ (forall i, ~ told 1 i (s_w honestS)).
Proof.
  assert (Hg : c_got (conn_of (s_w honestS) 1) = [(TextMessage, "M")]) by (vm_compute; reflexivity).
  split; [apply stealG_app|]. split; [apply honest_reachable|]. split; [vm_compute; reflexivity|].
  split; [apply steal_steps|].
  split; [vm_compute; reflexivity|]. split; [apply up_in; vm_compute; reflexivity|]. split; [apply up_in; vm_compute; reflexivity|]. split; [exact Hg|].
  split; [vm_compute; reflexivity|]. split; [vm_compute; reflexivity|]. split; [vm_compute; reflexivity|].
  intros i [typ H]. rewrite Hg in H. destruct H as [H|[]]. discriminate H.
Qed.
(*@exl C61. A client that got its ID. @*)
Lemma x_C61_client_example :
  user_app (fun _ => True) exG /\ g_client exG 2 = true /\
  let s := play exG [Go 0; Act1 (Env (EGo (TDial 2))); Go 1; Act1 Start; Act1 (Env (EDeliver 2 TextMessage "Aid-1")); Go 2; Go 1] (init exG) in
  c_got (conn_of (s_w s) 2) = [(TextMessage, "Aid-1")] /\ c_id (conn_of (s_w s) 2) = "id-1" /\ (forall j, told 2 j (s_w s) -> j = "id-1").
Proof.
  split; [constructor; try discriminate; try (intros; exact Logic.I); intros; eapply exA_user; eassumption|]. split; [reflexivity|]. cbn zeta.
  match goal with |- context [play ?G ?l ?s] => set (S0 := play G l s) end.
  assert (Hg : c_got (conn_of (s_w S0) 2) = [(TextMessage, "Aid-1")]) by (vm_compute; reflexivity).
  split; [exact Hg|]. split; [vm_compute; reflexivity|]. intros j [typ H]. rewrite Hg in H. destruct H as [H|[]]. injection H as _ H. congruence.
Qed.
