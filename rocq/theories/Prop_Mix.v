(** * Prop_Mix.v : property theorems (generated by tools/genprops.py from MixProofs.v).
    Every proof is the lemma of the same name in MixProofs.v. *)
From Coq Require Import ZArith.
From stdpp Require Import gmap strings list relations.
From Verif Require Import Go Errors Message World Lang Code Sem Spec_App Spec_Mix CarelessProofs Examples MixProofs.
From Verif Require Import MixProofs.

(** C72 is violated.  The callbacks of the application do not use the API at all; a goroutine of the application calls Ask while one of them
    runs.  The Ask returns an event of the other side as if it was the reply (it does not carry the token of the request), no callback was
    called for that event, and none will be: nothing is left to read. *)
Theorem C72_refuted : exists G s c token m inside,
  user_app (fun _ => True) G /\ silent_callbacks G /\ reachable G s /\ s_crash s = None /\
  LAskReply c token m inside ∈ w_log (s_w s) /\ m_wait m <> token /\ m_event m = "news" /\ m_body m = "second" /\
  handed_over (s_w s) c "first" /\ ~ handed_over (s_w s) c "second" /\ c_in (conn_of (s_w s) c) = [] /\ c_closed (conn_of (s_w s) c) = false.
Proof. exact l_C72_refuted. Qed.
Print Assumptions C72_refuted.
