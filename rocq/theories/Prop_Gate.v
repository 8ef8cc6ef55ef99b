(** * Prop_Gate.v : property theorems (generated by tools/genprops.py from GateProofs.v).
    Every proof is the lemma of the same name in GateProofs.v. *)
From Coq Require Import ZArith Ascii.
From stdpp Require Import gmap strings list relations.
From RecordUpdate Require Import RecordUpdate.
From Verif Require Import Go Errors Message World Lang Code Sem Spec_App Spec_Stuck Spec_Conn Spec_View Spec_Ready Examples Scenes StuckProofs GateProofs.
From Verif Require Import GateProofs.

(** C31.  In every schedule of any application: a goroutine that waits at the gate of a connection moves only after the
    gate was opened. *)
Theorem C31_not_before_partial : forall G s t c s',
  user_app (fun _ => True) G -> reachable G s -> at_op s t (OWRecv c) -> step G (Step t) s = Some s' ->
  w_ready (c_wait (conn_of (s_w s) c)) = true.
Proof. exact l_C31_not_before_partial. Qed.
Print Assumptions C31_not_before_partial.

(** C31.  The first waiter that finds the gate closed waits, and changes nothing the application or the peer can see.  While
    it waits the gate is opened with a result: whatever else has happened in between, the waiter then gets this result. *)
Theorem C31_waits_partial : forall c t w,
  w_ready (c_wait (conn_of w c)) = false -> w_locked (c_wait (conn_of w c)) = false -> w_chclosed (c_wait (conn_of w c)) = false ->
  exists w1 k, exec t (wait c) w = XBlocked w1 (OWRecv c) k /\ view w1 c = view w c /\ w_log w1 = w_log w /\
    (forall t' e w2, c_wait (conn_of w2 c) = c_wait (conn_of w1 c) ->
      exec t (Do (OWRecv c) k) w2 = XBlocked w2 (OWRecv c) k /\
      exists w3, exec t' (unwait c e) w2 = XDone w3 tt /\ exec t (Do (OWRecv c) k) w3 = XDone w3 e).
Proof. exact l_C31_waits_partial. Qed.
Print Assumptions C31_waits_partial.

(** C31.  The acknowledgment request "M" of a client arrives at a server side connection whose Upgrade has not decided yet:
    the reader waits, nothing is answered and nothing is handled. *)
Theorem C31_undecided_partial : forall G c t w typ more rest,
  c_sockclosed (conn_of w c) = false -> c_acked (conn_of w c) = false -> c_in (conn_of w c) = (typ, String "M" more) :: rest ->
  w_ready (c_wait (conn_of w c)) = false -> w_locked (c_wait (conn_of w c)) = false -> w_chclosed (c_wait (conn_of w c)) = false ->
  exists w1 k, exec t (reader_step G c) w = XBlocked w1 (OWRecv c) k /\
    view w1 c = view w c /\ w_log w1 = w_log w /\ c_acked (conn_of w1 c) = false /\ c_id (conn_of w1 c) = c_id (conn_of w c).
Proof. exact l_C31_undecided_partial. Qed.
Print Assumptions C31_undecided_partial.

(** C31. The server side of an example whose Upgrade is still running, with the "M" of the client at the door; and a Dial
    that waits at its gate and then moves, because the acknowledgment has opened it. *)
Example C31_gate_example :
  (let s := play exG early_run (init exG) in
   reachable exG s /\ c_sockclosed (conn_of (s_w s) 1) = false /\ c_acked (conn_of (s_w s) 1) = false /\
   c_in (conn_of (s_w s) 1) = [(TextMessage, "M")] /\ w_ready (c_wait (conn_of (s_w s) 1)) = false /\
   w_locked (c_wait (conn_of (s_w s) 1)) = false /\ w_chclosed (c_wait (conn_of (s_w s) 1)) = false) /\
  (let s := play dialer opened_run (init dialer) in
   user_app (fun _ => True) dialer /\ reachable dialer s /\ at_op s 1 (OWRecv 2) /\ is_Some (step dialer (Step 1) s)).
Proof. exact x_C31_gate_example. Qed.
