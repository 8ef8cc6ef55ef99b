(** * Prop_Self.v : property theorems (generated by tools/genprops.py from SelfProofs.v).
    Every proof is the lemma of the same name in SelfProofs.v. *)
From Coq Require Import ZArith.
From stdpp Require Import gmap strings list relations.
From Verif Require Import Go Errors Message World Lang Code Sem Spec_App Spec_Conn Spec_View Spec_Stuck Spec_Cross Spec_Self Examples Scenes SelfProofs.
From Verif Require Import SelfProofs.

(** C77 is violated, in general.  [t] waits without deadline for a reply that can only come through connection [c], and nobody else reads
    [c] for its handlers.  Then [t] waits for ever, whatever else happens: even if the reply arrives, if the connection is closed, or if
    other goroutines use it. *)
Theorem C77_reader_refuted : forall (G : cfg) (s : sys) (t : tid) (c : cid) (ch : chid),
  user_app (not_fed c) G -> reachable G s -> is_Some (w_conns (s_w s) !! c) ->
  at_op s t (OSelect ch None) -> answered_by (s_w s) c ch -> nobody_helps G s t t c ch ->
  stuck G s t.
Proof. exact l_C77_reader_refuted. Qed.
Print Assumptions C77_reader_refuted.

(** C77, two runs of an application that asks who says hello.  A connection gets the same four frames.  If the frame of the handshake comes
    first, the callback is told "me" and gives it back.  If it comes after the hello, the callback asks too, but its reply is never read,
    the handshake is never answered, and the reader of the connection never goes on. *)
Theorem C77_queue_refuted : exists G s s' t ch, (forall c, g_namespaces G c = asks_who) /\ (forall allowed : api -> Prop, (forall n x ev b, allowed (ANSAsk n x ev b)) -> user_app allowed G) /\
  reachable G s /\ s_crash s = None /\
  map snd (c_got (conn_of (s_w s) 1)) = ["M"; "$1;chat;;_OnNamespaceConnect;0;0;"; ";chat;;hello;0;0;"; "0;chat;;who;0;0;me"] /\ c_in (conn_of (s_w s) 1) = [] /\
  c_out (conn_of (s_w s) 1) = [(TextMessage, "Aid-1"); (TextMessage, "$1;;;;;;"); (TextMessage, "0;chat;;who;0;0;"); (TextMessage, ";chat;;hello;0;0;me")] /\
  reachable G s' /\ s_crash s' = None /\
  map snd (c_got (conn_of (s_w s') 1)) = ["$1;chat;;_OnNamespaceConnect;0;0;"; ";chat;;hello;0;0;"; "M"; "0;chat;;who;0;0;me"] /\
  c_in (conn_of (s_w s') 1) = [(TextMessage, "0;chat;;who;0;0;me")] /\ c_closed (conn_of (s_w s') 1) = false /\
  c_out (conn_of (s_w s') 1) = [(TextMessage, "$1;;;;;;"); (TextMessage, "0;chat;;who;0;0;")] /\
  at_op s' t (OSelect ch None) /\ stuck G s' t.
Proof. exact l_C77_queue_refuted. Qed.
Print Assumptions C77_queue_refuted.

(** C77.  The state of the second run meets the hypotheses of the general theorem. *)
Example C77_example : user_app (not_fed 1) selfG /\ reachable selfG earlyS /\ is_Some (w_conns (s_w earlyS) !! 1) /\
  at_op earlyS 3 (OSelect 3 None) /\ answered_by (s_w earlyS) 1 3 /\ nobody_helps selfG earlyS 3 3 1 3.
Proof. exact x_C77_example. Qed.
