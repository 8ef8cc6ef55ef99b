(** * Prop_Pair.v : property theorems (generated by tools/genprops.py from PairProofs.v).
    Every proof is the lemma of the same name in PairProofs.v. *)
From Coq Require Import ZArith.
From stdpp Require Import gmap strings list relations.
From RecordUpdate Require Import RecordUpdate.
From Verif Require Import Go Errors Message World Lang Code Sem Spec_App Spec_Conn Spec_View Examples Spec_Pair PairProofs.
From Verif Require Import PairProofs.

(** C66 fails: a disconnect event is missing.  The OnNamespaceConnect callback of this application closes the connection and
    returns nil.  The connection is then put into the namespace nevertheless, and OnNamespaceConnected is called.  Nothing is
    left to do in this state, and OnNamespaceDisconnect was not called. *)
Theorem C66_missing_refuted : exists (G : cfg) (s : sys),
  application (fun a => exists c, a = AClose c) G /\ reachable G s /\ nothing_left s /\ w_spawn (s_w s) = [] /\
  c_closed (conn_of (s_w s) 1) = true /\ is_Some (c_nss (conn_of (s_w s) 1) !! "chat") /\
  is_Some (ns_events G (NsRef 1 "chat" 1) !! OnNamespaceDisconnect) /\
  fired 1 (w_log (s_w s)) = [("chat", OnNamespaceConnect); ("chat", OnNamespaceConnected)].
Proof. exact l_C66_missing_refuted. Qed.
Print Assumptions C66_missing_refuted.

(** C66 fails: a disconnect event comes twice.  A connection is closed by a goroutine of the application while its reader
    handles a request to disconnect: OnNamespaceDisconnect is called twice for one OnNamespaceConnected. *)
Theorem C66_twice_refuted : exists (G : cfg) (s : sys),
  application (fun a => exists c, a = AClose c) G /\ reachable G s /\ nothing_left s /\ w_spawn (s_w s) = [] /\
  c_closed (conn_of (s_w s) 1) = true /\
  fired 1 (w_log (s_w s)) = [("chat", OnNamespaceConnect); ("chat", OnNamespaceConnected); ("chat", OnNamespaceDisconnect); ("chat", OnNamespaceDisconnect)].
Proof. exact l_C66_twice_refuted. Qed.
Print Assumptions C66_twice_refuted.
