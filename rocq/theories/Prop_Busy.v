(** * Prop_Busy.v : property theorems (generated by tools/genprops.py from BusyProofs.v).
    Every proof is the lemma of the same name in BusyProofs.v. *)
From Coq Require Import ZArith.
From stdpp Require Import gmap strings list relations.
From RecordUpdate Require Import RecordUpdate.
From Verif Require Import Go Errors Message World Lang Code Sem Spec_App Spec_Loop Spec_Stuck Spec_Busy Examples BusyProofs.
From Verif Require Import BusyProofs.

(** C65 fails: whatever the application and the schedule, once a callback that runs on the server's goroutine
    (OnDisconnect, a function given to Do) calls Do, or Broadcast or Ask with a synchronous broadcaster, the server
    takes up nothing any more: no connection, no disconnection, no broadcast and no function, and its set of
    connections stays as it is, for ever. *)
Theorem C65_refuted : forall G s a, user_app (fun _ => True) G -> reachable G s -> loop_calls s a -> needs_loop G a ->
  forall s', steps G s s' ->
    taken (w_log (s_w s')) = taken (w_log (s_w s)) /\ s_conns (w_srv (s_w s')) = s_conns (w_srv (s_w s)) /\ is_Some (s_th s' !! (0 : tid)).
Proof. exact l_C65_refuted. Qed.
Print Assumptions C65_refuted.

(** C65 fails for Close too: if OnDisconnect, or a function given to Do, closes a server that is still open, then
    the server may end up so that nothing is taken up any more, and the connections are not closed. *)
Theorem C65_close_refuted : forall G s, user_app (fun _ => True) G -> reachable G s -> s_crash s = None -> loop_calls s AServerClose ->
  s_closed (w_srv (s_w s)) = false ->
  exists s1, steps G s s1 /\ forall s', steps G s1 s' ->
    taken (w_log (s_w s')) = taken (w_log (s_w s)) /\ s_conns (w_srv (s_w s')) = s_conns (w_srv (s_w s)) /\ is_Some (s_th s' !! (0 : tid)).
Proof. exact l_C65_close_refuted. Qed.
Print Assumptions C65_close_refuted.

(** C65. A server with two connections.  Connection 1 was closed and OnDisconnect broadcasts; in another run a function
    given to Do closes the server.  Connection 2 is registered in both. *)
Example C65_example :
  user_app (fun _ => True) busyG /\
  (exists s, reachable busyG s /\ (exists a, loop_calls s a /\ needs_loop busyG a) /\ told (w_log (s_w s)) = [1] /\ elements (s_conns (w_srv (s_w s))) = [2]) /\
  exists s, reachable busyG s /\ s_crash s = None /\ loop_calls s AServerClose /\ s_closed (w_srv (s_w s)) = false /\ elements (s_conns (w_srv (s_w s))) = [1; 2].
Proof. exact x_C65_example. Qed.
