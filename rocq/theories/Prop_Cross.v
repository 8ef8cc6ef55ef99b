(** * Prop_Cross.v : property theorems (generated by tools/genprops.py from CrossProofs.v).
    Every proof is the lemma of the same name in CrossProofs.v. *)
From Coq Require Import ZArith.
From stdpp Require Import gmap strings list relations.
From Verif Require Import Go Errors Message World Lang Code Sem Spec_App Spec_Conn Spec_View Examples Scenes Spec_Stuck Spec_Cross CrossProofs.
From Verif Require Import CrossProofs.

(** C54 is violated.  [t] is in Connect, or in another request of connection
    [c], and waits without deadline for the reply (conn.go:987-1001); [u] is the
    reader of [c]: a message of a namespace that is being connected came first,
    and it waits for that process to finish (conn.go:585, process.go).  Then both
    wait for ever, whatever else happens: even if the reply arrives, if other
    goroutines connect to the namespace too, or if the connection is closed. *)
Theorem C54_refuted : forall (G : cfg) (s : sys) (t u : tid) (c : cid) (ch : chid) (p : pid) (g : nat),
  user_app (not_fed c) G -> reachable G s -> is_Some (w_conns (s_w s) !! c) ->
  at_op s t (OSelect ch None) -> answered_by (s_w s) c ch ->
  at_op s u (OProcWoken p g) -> running (s_w s) p g ->
  nobody_helps G s t u c ch ->
  stuck G s t /\ stuck G s u.
Proof. exact l_C54_refuted. Qed.
Print Assumptions C54_refuted.

(** The server sent the event and then its reply; the client does not get as far as
    reading the reply: neither Connect nor the reader ever goes on. *)
Example C54_refuted_example : let s := play crossed crossed_run (init crossed) in
  user_app (not_fed 2) crossed /\ reachable crossed s /\
  c_out (conn_of (s_w s) 2) = [(TextMessage, "M"); (TextMessage, "$0;chat;;_OnNamespaceConnect;0;0;")] /\
  c_out (conn_of (s_w s) 1) = [(TextMessage, "Aid-1"); (TextMessage, ";chat;;echo;0;0;hi"); (TextMessage, "$0;;;;;;")] /\
  c_in (conn_of (s_w s) 2) = [(TextMessage, "$0;;;;;;")] /\ c_closed (conn_of (s_w s) 2) = false /\ s_crash s = None /\
  stuck crossed s 5 /\ stuck crossed s 4.
Proof. exact x_C54_refuted_example. Qed.
