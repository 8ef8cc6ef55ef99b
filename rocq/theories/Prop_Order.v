(** * Prop_Order.v : property theorems (generated by tools/genprops.py from OrderProofs.v).
    Every proof is the lemma of the same name in OrderProofs.v. *)
From Coq Require Import ZArith Ascii.
From stdpp Require Import gmap strings list relations.
From RecordUpdate Require Import RecordUpdate.
From Verif Require Import Go Errors Message World Lang Code Sem Spec_App Spec_Conn Spec_View Spec_Cross Spec_Order Examples OrderProofs.
From Verif Require Import OrderProofs.

(** C56.  In every schedule of any application that leaves the frames of connection [c] to the library: as long as [c] is
    open, the messages of one kind (text or binary) for which callbacks of ordinary events ran are messages that arrived on
    [c], in the order in which they arrived, and none of them was handled twice. *)
Theorem C56_order : forall G c typ s,
  user_app (not_fed c) G -> reachable G s -> c_closed (conn_of (s_w s) c) = false ->
  sublist (handled c typ (s_w s)) (arrived G c typ (s_w s)).
Proof. exact l_C56_order. Qed.
Print Assumptions C56_order.

(** C56.  The same after [c] was closed, unless a second handshake was completed (a frame "M" that the reader takes
    between the reset of the handshake and the end of the socket). *)
Theorem C56_order_closed : forall G c typ s,
  user_app (not_fed c) G -> reachable G s -> shook_hands_once G c (s_w s) ->
  sublist (handled c typ (s_w s)) (arrived G c typ (s_w s)).
Proof. exact l_C56_order_closed. Qed.
Print Assumptions C56_order_closed.

(** C56.  In any case, even if the handshake is repeated: no message is invented, and none is handled more often than it
    arrived. *)
Theorem C56_once : forall G c typ s,
  user_app (not_fed c) G -> reachable G s -> handled c typ (s_w s) ⊆+ arrived G c typ (s_w s).
Proof. exact l_C56_once. Qed.
Print Assumptions C56_once.

(** C56.  In every schedule of any application, whatever the other side sends: while a connection is open its handshake is
    completed at most once, and never if the connection carries native messages only. *)
Theorem C56_handshake : forall G c s,
  user_app (fun _ => True) G -> reachable G s -> c_closed (conn_of (s_w s) c) = false -> shook_hands_once G c (s_w s).
Proof. exact l_C56_handshake. Qed.
Print Assumptions C56_handshake.

(** C56. A run with an event before the handshake and events of both kinds after it. *)
Example C56_example :
  user_app (not_fed 1) exG /\ reachable exG orderS /\ shook_hands_once exG 1 (s_w orderS) /\
  map m_body (handled 1 TextMessage (s_w orderS)) = ["one"; "two"; "three"] /\ map m_body (handled 1 BinaryMessage (s_w orderS)) = ["bin"] /\
  length (arrived exG 1 TextMessage (s_w orderS)) = 5.
Proof. exact x_C56_example. Qed.

(** C56.  Without that premise the order is lost: while Close is on its way, a second handshake makes the reader handle a
    message "one" that had arrived before "two" and had been put aside, after "two" was handled; [c] had joined the namespace
    again by then. *)
Theorem C56_order_refuted : exists G c typ s,
  user_app (not_fed c) G /\ reachable G s /\ ~ sublist (handled c typ (s_w s)) (arrived G c typ (s_w s)) /\
  map m_body (handled c typ (s_w s)) = ["two"; "one"].
Proof. exact l_C56_order_refuted. Qed.
Print Assumptions C56_order_refuted.
