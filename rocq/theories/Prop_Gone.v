(** * Prop_Gone.v : property theorems (generated by tools/genprops.py from GoneProofs.v).
    Every proof is the lemma of the same name in GoneProofs.v. *)
From Coq Require Import ZArith.
From stdpp Require Import gmap strings list relations.
From Verif Require Import Go Errors Message World Lang Code Sem Spec_App Spec_Loop Spec_Gone Examples LoopProofs AsyncProofs GoneProofs.
From Verif Require Import GoneProofs.

(** C67.  In every reachable state of any application: a connection that OnDisconnect was called with is closed, and so is one whose
    disconnection the server took up. *)
Theorem C67_told : forall G s c,
  user_app (fun _ => True) G -> reachable G s -> LOnDisconnect c ∈ w_log (s_w s) \/ LSrv (SDisconnect c) ∈ w_log (s_w s) -> is_closed G s c.
Proof. exact l_C67_told. Qed.
Print Assumptions C67_told.

(** C67.  A connection that is registered stays registered, whatever happens, until it is closed. *)
Theorem C67_stays : forall G s s' c,
  user_app (fun _ => True) G -> reachable G s -> steps G s s' -> c ∈ s_conns (w_srv (s_w s)) -> ~ is_closed G s' c -> c ∈ s_conns (w_srv (s_w s')).
Proof. exact l_C67_stays. Qed.
Print Assumptions C67_stays.

(** C67.  Whenever the server loop waits, every connection that it took up and that is not closed is registered. *)
Theorem C67_registered : forall G s c,
  user_app (fun _ => True) G -> reachable G s -> loop_waits s -> LSrv (SConnect c) ∈ w_log (s_w s) -> ~ is_closed G s c -> c ∈ s_conns (w_srv (s_w s)).
Proof. exact l_C67_registered. Qed.
Print Assumptions C67_registered.

(** C67.  So an open connection misses nothing: with SyncBroadcaster, whenever the server loop waits, a connection that is not closed was
    offered exactly the broadcasts that the server took up after this connection, each once and in that order. *)
Theorem C67_broadcasts : forall G s c l2 l1,
  user_app (fun _ => True) G -> g_sync G = true -> reachable G s -> loop_waits s ->
  w_log (s_w s) = l2 ++ LSrv (SConnect c) :: l1 -> ~ is_closed G s c -> offered c (w_log (s_w s)) = casts l2.
Proof. exact l_C67_broadcasts. Qed.
Print Assumptions C67_broadcasts.

(** C67.  The same for functions passed to Do. *)
Theorem C67_do : forall G s c l2 l1,
  user_app (fun _ => True) G -> reachable G s -> loop_waits s ->
  w_log (s_w s) = l2 ++ LSrv (SConnect c) :: l1 -> ~ is_closed G s c -> done_for c (w_log (s_w s)) = dos l2.
Proof. exact l_C67_do. Qed.
Print Assumptions C67_do.

(** C67.  With an asynchronous broadcaster, the goroutine that delivers the broadcasts to a connection goes on as long as the
    connection is open, whatever happens: what is sent, which writes fail, and in which order things happen. *)
Theorem C67_deliverer : forall G c t s s',
  user_app (fun _ => True) G -> reachable G s -> s_th s !! t = Some (code G (TWaitMessages c)) -> steps G s s' -> ~ is_closed G s' c -> is_Some (s_th s' !! t).
Proof. exact l_C67_deliverer. Qed.
Print Assumptions C67_deliverer.

(** C67.  The library closes the network connection (and the channel that ends the goroutines of the connection) only when the connection
    is closed. *)
Theorem C67_socket : forall G s c,
  user_app (fun _ => True) G -> reachable G s -> c_sockclosed (conn_of (s_w s) c) = true \/ c_closeCh (conn_of (s_w s) c) = true -> is_closed G s c.
Proof. exact l_C67_socket. Qed.
Print Assumptions C67_socket.

(** C67.  In the example of C34, connection 1 is closed and OnDisconnect was called for it, connection 2 is open and registered, the server
    took up two broadcasts after connection 2, and connection 2 was offered both. *)
Example C67_example : user_app (fun _ => True) loopG /\ g_sync loopG = true /\ reachable loopG loopS /\ loop_waits loopS /\
  LOnDisconnect 1 ∈ w_log (s_w loopS) /\ is_closed loopG loopS 1 /\ ~ is_closed loopG loopS 2 /\ s_conns (w_srv (s_w loopS)) = {[2]} /\
  exists l2 l1, w_log (s_w loopS) = l2 ++ LSrv (SConnect 2) :: l1 /\ casts l2 = [[hello]; [hello]] /\ dos l2 = [7].
Proof. exact x_C67_example. Qed.

(** C67.  Goroutine 2 is about to wait for broadcasts for connection 1.  It has ended after the connection broke and was closed. *)
Example C67_deliverer_example :
  let s := play asyncG [Go 0; Act1 (Env (EGo (TUpgrade 1))); Go 1; Act1 Start] (init asyncG) in
  let s' := play asyncG [Act1 Start; Go 2; Act1 (Env (EReadEnd 1 EEOF)); Go 3; Go 2] s in
  user_app (fun _ => True) asyncG /\ reachable asyncG s /\ steps asyncG s s' /\ s_th s !! (2 : tid) = Some (code asyncG (TWaitMessages 1)) /\ ~ is_closed asyncG s 1 /\
  s_th s' !! (2 : tid) = None /\ is_closed asyncG s' 1 /\ c_sockclosed (conn_of (s_w s') 1) = true.
Proof. exact x_C67_deliverer_example. Qed.
