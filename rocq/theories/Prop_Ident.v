(** * Prop_Ident.v : property theorems (generated by tools/genprops.py from IdentProofs.v).
    Every proof is the lemma of the same name in IdentProofs.v. *)
From Coq Require Import ZArith Ascii.
From stdpp Require Import gmap strings list relations.
From RecordUpdate Require Import RecordUpdate.
From Verif Require Import Go Errors Message World Lang Code Sem Spec_App Spec_Conn Spec_View Spec_Order Spec_Ident Examples Scenes IdentProofs.
From Verif Require Import IdentProofs.

(** C61.  In every schedule of any application, whatever the other side sends: once the handshake of a connection was
    completed, its ID never changes while the connection is open. *)
Theorem C61_fixed : forall G c s s',
  user_app (fun _ => True) G -> reachable G s -> 0 < handshakes c (s_w s) -> steps G s s' ->
  c_closed (conn_of (s_w s') c) = false -> c_id (conn_of (s_w s') c) = c_id (conn_of (s_w s) c).
Proof. exact l_C61_fixed. Qed.
Print Assumptions C61_fixed.

(** C61 (missing: on a server, the ID may be one that the other side sent, see C61_refuted).  In every schedule of any
    application: the ID of a connection is the one that this side gave to it (the ID generator of a server; a client gives
    none), or the other side sent it in a frame "A".  Before the connection is made it has none. *)
Theorem C61_origin_partial : forall G c s,
  user_app (fun _ => True) G -> reachable G s ->
  let i := c_id (conn_of (s_w s) c) in
  (i = "" \/ i = own_id G c \/ told c i (s_w s)) /\
  (LUpgraded c None ∈ w_log (s_w s) -> i = own_id G c \/ told c i (s_w s)).
Proof. exact l_C61_origin_partial. Qed.
Print Assumptions C61_origin_partial.

(** C61.  In every schedule of any application: a server side connection to which the other side sent no frame that
    starts with "A" has the ID that the server's ID generator made for it, from when Upgrade has succeeded, for ever. *)
Theorem C61_server : forall G c s,
  user_app (fun _ => True) G -> reachable G s -> g_client G c = false -> LUpgraded c None ∈ w_log (s_w s) ->
  (forall i, ~ told c i (s_w s)) -> c_id (conn_of (s_w s) c) = g_connid G c.
Proof. exact l_C61_server. Qed.
Print Assumptions C61_server.

(** C61.  A client to which the server sent only one ID has no ID or that one. *)
Theorem C61_client : forall G c i s,
  user_app (fun _ => True) G -> reachable G s -> g_client G c = true ->
  (forall j, told c j (s_w s) -> j = i) -> c_id (conn_of (s_w s) c) = "" \/ c_id (conn_of (s_w s) c) = i.
Proof. exact l_C61_client. Qed.
Print Assumptions C61_client.

(** C61.  The code violates C61 on a server: connection 3 sends the frame "A" with the ID of connection 1.  Both are open,
    their handshakes are completed, and both have that ID, though the server gave them different ones; a message that the
    application sends to this ID alone reaches connection 3. *)
Theorem C61_refuted : exists G c c' s m,
  user_app (fun _ => True) G /\ reachable G s /\ c <> c' /\ g_client G c = false /\ g_client G c' = false /\ g_connid G c <> g_connid G c' /\
  c_closed (conn_of (s_w s) c) = false /\ c_closed (conn_of (s_w s) c') = false /\ LUpgraded c' None ∈ w_log (s_w s) /\
  c_id (conn_of (s_w s) c') = g_connid G c /\ c_id (conn_of (s_w s) c) = g_connid G c /\
  m_to m = g_connid G c /\ m_body m = "hi" /\ g_user G 0 = call (ABroadcast None [m]) /\
  In (TextMessage, ";chat;;echo;0;0;hi") (c_out (conn_of (s_w s) c')).
Proof. exact l_C61_refuted. Qed.
Print Assumptions C61_refuted.

(** C61. The same server before: connection 1 has completed its handshake, 3 has not; nobody sent "A". *)
Example C61_example :
  user_app (fun _ => True) stealG /\ reachable stealG honestS /\ handshakes 1 (s_w honestS) = 1 /\ steps stealG honestS stealS /\
  c_closed (conn_of (s_w stealS) 1) = false /\ LUpgraded 1 None ∈ w_log (s_w honestS) /\ LUpgraded 3 None ∈ w_log (s_w honestS) /\
  c_got (conn_of (s_w honestS) 1) = [(TextMessage, "M")] /\ c_got (conn_of (s_w honestS) 3) = [] /\ c_id (conn_of (s_w honestS) 1) = "id-1" /\
  c_id (conn_of (s_w honestS) 3) = "id-3" /\ (forall i, ~ told 1 i (s_w honestS)).
Proof. exact x_C61_example. Qed.

(** C61. A client that got its ID. *)
Example C61_client_example :
  user_app (fun _ => True) exG /\ g_client exG 2 = true /\
  let s := play exG [Go 0; Act1 (Env (EGo (TDial 2))); Go 1; Act1 Start; Act1 (Env (EDeliver 2 TextMessage "Aid-1")); Go 2; Go 1] (init exG) in
  c_got (conn_of (s_w s) 2) = [(TextMessage, "Aid-1")] /\ c_id (conn_of (s_w s) 2) = "id-1" /\ (forall j, told 2 j (s_w s) -> j = "id-1").
Proof. exact x_C61_client_example. Qed.
