(** * Prop_Exit.v : property theorems (generated by tools/genprops.py from ExitProofs.v).
    Every proof is the lemma of the same name in ExitProofs.v. *)
From Coq Require Import ZArith.
From stdpp Require Import gmap strings list relations.
From RecordUpdate Require Import RecordUpdate.
From Verif Require Import Go Errors Message World Lang Code Sem Spec_App Spec_Conn Spec_View Spec_Exit Examples ExitProofs.
From Verif Require Import ExitProofs.

(** C80, as far as it holds.  The server takes up the end of a connection it knows, and has a stack exchange.  Without an OnDisconnect callback
    the exchange is told. *)
Theorem C80_plain_partial : forall G t c w,
  g_exch G <> None -> g_ondisconnect G = None -> next_is w (SDisconnect c) -> c ∈ s_conns (w_srv w) ->
  exists w', exec t (server_step G) w = XDone w' tt /\ w_log w' = LExch (XOnDisconnect c) :: LSrv (SDisconnect c) :: w_log w /\ c ∉ s_conns (w_srv w').
Proof. exact l_C80_plain_partial. Qed.
Print Assumptions C80_plain_partial.

(** C80, as far as it holds.  With an OnDisconnect callback that returns, the exchange is told after the callback if the connection was accepted, or
    if FireDisconnectAlways is set. *)
Theorem C80_accepted_partial : forall G t c w f,
  g_exch G <> None -> g_ondisconnect G = Some f -> next_is w (SDisconnect c) -> c ∈ s_conns (w_srv w) ->
  g_firealways G = true \/ was_accepted w c ->
  exists w1, w_log w1 = LOnDisconnect c :: LSrv (SDisconnect c) :: w_log w /\ c ∉ s_conns (w_srv w1) /\
    forall w2, exec t (f c) w1 = XDone w2 tt ->
      exists w', exec t (server_step G) w = XDone w' tt /\ w_log w' = LExch (XOnDisconnect c) :: w_log w2.
Proof. exact l_C80_accepted_partial. Qed.
Print Assumptions C80_accepted_partial.

(** C80 is violated.  With an OnDisconnect callback and without FireDisconnectAlways, the exchange is not told about the end of a connection that
    was not accepted; and the server forgets the connection, so that it will not be told later. *)
Theorem C80_refused_refuted : forall G t c w f,
  g_ondisconnect G = Some f -> g_firealways G = false -> next_is w (SDisconnect c) -> c ∈ s_conns (w_srv w) -> ~ was_accepted w c ->
  exists w', exec t (server_step G) w = XDone w' tt /\ w_log w' = LSrv (SDisconnect c) :: w_log w /\ c ∉ s_conns (w_srv w').
Proof. exact l_C80_refused_refuted. Qed.
Print Assumptions C80_refused_refuted.

(** C80, a whole run.  OnConnect refuses a connection.  It is closed, the server has forgotten it, and nothing is left to do; the stack exchange was
    told that it came, and is not told that it went. *)
Theorem C80_refuted : exists G s, user_app (fun _ => True) G /\ g_exch G <> None /\ reachable G s /\ s_crash s = None /\
  c_closed (conn_of (s_w s) 1) = true /\ elements (s_conns (w_srv (s_w s))) = [] /\ s_disc (w_srv (s_w s)) = [] /\ w_spawn (s_w s) = [] /\ map fst (map_to_list (s_th s)) = [0] /\
  exchange_calls (s_w s) = [XOnConnect 1].
Proof. exact l_C80_refuted. Qed.
Print Assumptions C80_refuted.

(** C80.  The same application when it accepts and when it refuses: the server is about to take up the end of the connection, and the exchange is told in the
    first case. *)
Example C80_example : (forall b, reachable (exitG b) (exitingS b)) /\ (forall b, next_is (s_w (exitingS b)) (SDisconnect 1)) /\ (forall b, 1 ∈ s_conns (w_srv (s_w (exitingS b)))) /\
  was_accepted (s_w (exitingS true)) 1 /\ ~ was_accepted (s_w (exitingS false)) 1 /\ exchange_calls (s_w (exitS true)) = [XOnDisconnect 1; XOnConnect 1].
Proof. exact x_C80_example. Qed.
