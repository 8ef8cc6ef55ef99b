(** * Prop_Handshake.v : property theorems (generated by tools/genprops.py from HandshakeProofs.v).
    Every proof is the lemma of the same name in HandshakeProofs.v. *)
From Coq Require Import ZArith Ascii.
From stdpp Require Import gmap strings list relations.
From RecordUpdate Require Import RecordUpdate.
From Verif Require Import Go Errors Message World Lang Code Sem Spec_App Spec_Conn Spec_View Spec_Ready Examples HandshakeProofs.
From Verif Require Import HandshakeProofs.

(** C29.  If OnConnect agreed, an undisturbed handshake ends with a Dial that returns no error and the ID the server
    generated, whatever it is; both ends are acknowledged and have the same ID. *)
Theorem C29_accepted_partial : forall G a b ta tb tr w,
  a <> b -> g_client G a = true -> onlyNative G a = false -> w_conns w !! a = None -> expecting G w b None ->
  let id := c_id (conn_of w b) in
  exists w', handshake G a b ta tb tr w (TextMessage, String "A" id) true w' /\
    w_log w' = LDial a None id :: LAcked a :: LAcked b :: w_log w /\
    c_id (conn_of w' a) = id /\ c_id (conn_of w' b) = id /\ c_acked (conn_of w' a) = true /\ c_acked (conn_of w' b) = true /\
    c_closed (conn_of w' a) = false /\ c_closed (conn_of w' b) = false.
Proof. exact l_C29_accepted_partial. Qed.
Print Assumptions C29_accepted_partial.

(** C29.  If OnConnect refused with an error, an undisturbed handshake ends with a Dial that returns an error with the
    same text, whatever it is; the client side is closed, the server side is not acknowledged and its reader ends. *)
Theorem C29_refused_partial : forall G a b ta tb tr w e text,
  a <> b -> g_client G a = true -> onlyNative G a = false -> w_conns w !! a = None -> expecting G w b (Some e) ->
  err_text e = Ok text ->
  exists w' e', handshake G a b ta tb tr w (TextMessage, String "H" text) false w' /\
    w_log w' = LDial a (Some e') "" :: w_log w /\ err_text e' = Ok text /\
    c_closed (conn_of w' a) = true /\ c_sockclosed (conn_of w' a) = true /\ c_acked (conn_of w' b) = false.
Proof. exact l_C29_refused_partial. Qed.
Print Assumptions C29_refused_partial.

(** C29, C31.  Opened sequentially, the gate keeps its first result: whatever it is opened with afterwards, a waiter that comes
    then gets the first one, at once. *)
Theorem C31_first_partial : forall c t w e es,
  c_wait (conn_of w c) = waiter0 ->
  exists w', exec t (bind (unwait c e) (fun _ => bind (for_all es (unwait c)) (fun _ => wait c))) w = XDone w' e.
Proof. exact l_C31_first_partial. Qed.
Print Assumptions C31_first_partial.

(** C29.  An OnConnect that writes and then fails: Upgrade has returned the error, and afterwards the connection still accepts
    the handshake of its peer and answers with its ID. *)
Theorem C29_talk_refuted : exists G c e s l2 l1,
  user_app (fun _ => True) G /\ g_client G c = false /\ reachable G s /\
  w_log (s_w s) = l2 ++ LAcked c :: l1 /\ LUpgraded c (Some e) ∈ l1 /\
  c_out (conn_of (s_w s) c) = [(TextMessage, String "A" (g_connid G c))] /\ c_closed (conn_of (s_w s) c) = false.
Proof. exact l_C29_talk_refuted. Qed.
Print Assumptions C29_talk_refuted.

(** C29.  A client whose peer is not a neffos server: if it answers the "M" of the handshake with "M", and the reader handles
    it before Dial waits, Dial returns no error, although nobody accepted the connection, and without an ID. *)
Theorem C29_echo_refuted : exists G c s,
  user_app (fun _ => True) G /\ g_client G c = true /\ onlyNative G c = false /\ reachable G s /\ w_log (s_w s) = [LDial c None ""] /\
  c_acked (conn_of (s_w s) c) = false.
Proof. exact l_C29_echo_refuted. Qed.
Print Assumptions C29_echo_refuted.

(** C30.  The code violates C30 on a server: OnConnect refuses everybody and Upgrade has returned the error, but a peer that
    sends the acknowledgment "A"id itself, as only a server should, ends the handshake: callbacks run for its messages,
    the connection stays open, and it has the ID its peer chose. *)
Theorem C30_refuted : exists G c e id s n key m l2 l1,
  user_app (fun _ => True) G /\ g_client G c = false /\ onlyNative G c = false /\ reachable G s /\
  g_onconnect G = Some (fun _ => Ret (Some e)) /\ n_conn n = c /\ from_remote m /\
  w_log (s_w s) = l2 ++ LFire n key m :: l1 /\ LUpgraded c (Some e) ∈ l1 /\
  c_closed (conn_of (s_w s) c) = false /\ c_id (conn_of (s_w s) c) = id /\ id <> g_connid G c.
Proof. exact l_C30_refuted. Qed.
Print Assumptions C30_refuted.

(** C29. Both hypotheses hold in reachable states: a server that accepts (with an ID that contains a separator) and one that refuses. *)
Example C29_example :
  reachable acceptG acceptS /\ expecting acceptG (s_w acceptS) 1 None /\ w_conns (s_w acceptS) !! 2 = None /\ c_id (conn_of (s_w acceptS) 1) = "id;1" /\
  reachable (strictG false) (strictS false) /\ expecting (strictG false) (s_w (strictS false)) 1 (Some go_away) /\
  w_conns (s_w (strictS false)) !! 2 = None /\ err_text go_away = Ok "go away" /\
  g_client acceptG 2 = true /\ onlyNative acceptG 2 = false.
Proof. exact x_C29_example. Qed.

(** C31. The gate of a new connection is closed. *)
Example C31_first_example : c_wait (conn_of world0 1) = waiter0.
Proof. exact x_C31_first_example. Qed.
