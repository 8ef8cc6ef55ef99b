(** * Prop_Loop.v : property theorems (generated by tools/genprops.py from LoopProofs.v).
    Every proof is the lemma of the same name in LoopProofs.v. *)
From Coq Require Import ZArith.
From stdpp Require Import gmap strings list relations.
From RecordUpdate Require Import RecordUpdate.
From Verif Require Import Go Errors Message World Lang Code Sem Spec_View Examples.
From Verif Require Import Spec_App Scenes Spec_Answer Spec_Loop.
From Verif Require Import LoopProofs.

(** C34. With SyncBroadcaster, whatever the application does and however goroutines interleave: when the server
    loop takes up anything, every connection has been offered exactly the broadcasts that were taken up before while it
    was registered, each once and in that order. *)
Theorem C34_rounds : forall (G : cfg) (s : sys) c y l2 l1,
  user_app (fun _ => True) G -> g_sync G = true -> reachable G s ->
  w_log (s_w s) = l2 ++ LSrv y :: l1 -> offered c l1 = casts_for c l1.
Proof. exact l_C34_rounds. Qed.
Print Assumptions C34_rounds.

(** C34. The same holds for the whole history whenever the server loop waits. *)
Theorem C34_rest : forall (G : cfg) (s : sys) c,
  user_app (fun _ => True) G -> g_sync G = true -> reachable G s -> loop_waits s ->
  offered c (w_log (s_w s)) = casts_for c (w_log (s_w s)).
Proof. exact l_C34_rest. Qed.
Print Assumptions C34_rest.

(** C34. At any other time a connection lacks at most the broadcast that was taken up last, and no broadcast is
    offered that was not taken up or is offered twice. *)
Theorem C34_always : forall (G : cfg) (s : sys) c,
  user_app (fun _ => True) G -> g_sync G = true -> reachable G s ->
  exists pending, length pending <= 1 /\ casts_for c (w_log (s_w s)) = pending ++ offered c (w_log (s_w s)).
Proof. exact l_C34_always. Qed.
Print Assumptions C34_always.

(** C37. In every reachable state in which the server loop waits, GetTotalConnections returns the number of
    connections that were announced and not withdrawn, and these are the registered connections. *)
Theorem C37_total_partial : forall (G : cfg) (s : sys) (t : tid),
  user_app (fun _ => True) G -> reachable G s -> loop_waits s ->
  exec t (impl G ATotal) (s_w s) = XDone (s_w s) (Z.of_nat (size (members (w_log (s_w s))))) /\
  s_conns (w_srv (s_w s)) = members (w_log (s_w s)).
Proof. exact l_C37_total_partial. Qed.
Print Assumptions C37_total_partial.

(** C37. At any other time, too, GetTotalConnections is off by at most one, by the connection the loop is
    registering or removing. *)
Theorem C37_any_time_partial : forall (G : cfg) (s : sys) (t : tid),
  user_app (fun _ => True) G -> reachable G s ->
  exists z, exec t (impl G ATotal) (s_w s) = XDone (s_w s) z /\ (Z.abs (z - Z.of_nat (size (members (w_log (s_w s))))) <= 1)%Z.
Proof. exact l_C37_any_time_partial. Qed.
Print Assumptions C37_any_time_partial.

(** C37. A connection is announced at most once.  OnDisconnect is called at most once per connection, only for
    connections that were announced and withdrawn, and such a connection is not registered again. *)
Theorem C37_once_partial : forall (G : cfg) (s : sys),
  user_app (fun _ => True) G -> reachable G s ->
  NoDup (announced (w_log (s_w s))) /\ NoDup (told (w_log (s_w s))) /\
  forall c, c ∈ told (w_log (s_w s)) ->
    LSrv (SConnect c) ∈ w_log (s_w s) /\ LSrv (SDisconnect c) ∈ w_log (s_w s) /\ c ∉ members (w_log (s_w s)).
Proof. exact l_C37_once_partial. Qed.
Print Assumptions C37_once_partial.

(** C37. If OnDisconnect is set and FireDisconnectAlways too, then whenever the server loop waits OnDisconnect has
    been called for exactly the members that were withdrawn, in that order. *)
Theorem C37_each_partial : forall (G : cfg) (s : sys),
  user_app (fun _ => True) G -> always_told G -> reachable G s -> loop_waits s ->
  told (w_log (s_w s)) = withdrawn (w_log (s_w s)).
Proof. exact l_C37_each_partial. Qed.
Print Assumptions C37_each_partial.

(** C55. When the server loop takes up anything, every connection has been passed to exactly the functions given to
    Do that were taken up before while it was registered, each once and in that order. *)
Theorem C55_rounds : forall (G : cfg) (s : sys) c y l2 l1,
  user_app (fun _ => True) G -> reachable G s ->
  w_log (s_w s) = l2 ++ LSrv y :: l1 -> done_for c l1 = dos_for c l1.
Proof. exact l_C55_rounds. Qed.
Print Assumptions C55_rounds.

(** C55. The same holds for the whole history whenever the server loop waits. *)
Theorem C55_rest : forall (G : cfg) (s : sys) c,
  user_app (fun _ => True) G -> reachable G s -> loop_waits s ->
  done_for c (w_log (s_w s)) = dos_for c (w_log (s_w s)).
Proof. exact l_C55_rest. Qed.
Print Assumptions C55_rest.

(** C55. A goroutine that called Do without async is still in that call, or the call returned in a state by which
    the loop had taken up the function, after the call, and had called it with every connection registered then. *)
Theorem C55_sync : forall (G : cfg) (s s' : sys) (t : tid) f kont,
  user_app (fun _ => True) G -> reachable G s ->
  s_th s !! t = Some (bind (impl G (ADo f false)) kont) -> steps G s s' ->
  still G s' t (impl G (ADo f false)) kont \/
  exists s1, steps G s s1 /\ steps G s1 s' /\ got s1 t kont tt /\ performed s s1 (ActUser f).
Proof. exact l_C55_sync. Qed.
Print Assumptions C55_sync.

(** C38. A goroutine that called Close of a running server is still in that call, or the call returned in a state in
    which the server is marked as closed and either every connection that was registered when the loop took up the
    closing, after the call, is closed, or another Close came first. *)
Theorem C38_close_partial : forall (G : cfg) (s s' : sys) (t : tid) kont,
  user_app (fun _ => True) G -> reachable G s -> started s ->
  s_th s !! t = Some (bind (impl G AServerClose) kont) -> steps G s s' ->
  still G s' t (impl G AServerClose) kont \/
  exists s1, steps G s s1 /\ steps G s1 s' /\ got s1 t kont tt /\ s_closed (w_srv (s_w s1)) = true /\
    (performed s s1 ActClose \/
     exists s0, steps G s s0 /\ steps G s0 s1 /\ s_th s0 !! t = Some (bind (impl G AServerClose) kont) /\ s_closed (w_srv (s_w s0)) = true).
Proof. exact l_C38_close_partial. Qed.
Print Assumptions C38_close_partial.

(** C38. Once a running server is marked as closed it stays so, and every Upgrade that starts then is refused with
    the error "server closed": its goroutine does nothing else. *)
Theorem C38_refused_partial : forall (G : cfg) (s s1 s2 s3 : sys) (t : tid) c,
  user_app (fun _ => True) G -> reachable G s -> started s -> steps G s s1 -> s_closed (w_srv (s_w s1)) = true -> steps G s1 s2 ->
  s_closed (w_srv (s_w s2)) = true /\
  (s_th s2 !! t = Some (code G (TUpgrade c)) -> steps G s2 s3 ->
   s_th s3 !! t = Some (code G (TUpgrade c)) \/
   s_th s3 !! t = Some (Do (OLog (LUpgraded c (Some EServerClosed))) (fun _ => Ret None)) \/
   (s_th s3 !! t = Some (Ret None) \/ s_th s3 !! t = None) /\ LUpgraded c (Some EServerClosed) ∈ w_log (s_w s3)).
Proof. exact l_C38_refused_partial. Qed.
Print Assumptions C38_refused_partial.

(** C34, C37, C55. A server with two connections.  The application broadcasts, closes connection 1, broadcasts again
    and passes a function to Do.  Connection 1 was offered one batch, connection 2 both; OnDisconnect was called for
    connection 1; the function was called with connection 2 only. *)
Example C34_example :
  let l := w_log (s_w loopS) in
  user_app (fun _ => True) loopG /\ g_sync loopG = true /\ always_told loopG /\ reachable loopG loopS /\ loop_waits loopS /\
  offered 1 l = [[hello]] /\ offered 2 l = [[hello]; [hello]] /\ casts_for 2 l = [[hello]; [hello]] /\
  announced l = [2; 1] /\ told l = [1] /\ members l = {[2]} /\ done_for 1 l = [] /\ done_for 2 l = [7].
Proof. exact x_C34_example. Qed.

(** C38. The server is closed then: connection 2 is closed and an Upgrade is refused. *)
Example C38_example :
  let s := play loopG [Act1 (Env (EGo (TUser 2))); Act1 (Step 10)] loopS in
  let s' := play loopG [Act1 (Env (EGo (TUpgrade 3))); Go 11] closedS in
  started s /\ s_th s !! (10 : tid) = Some (bind (impl loopG AServerClose) (fun _ => Ret None)) /\ c_closed (conn_of (s_w s) 2) = false /\
  s_th closedS !! (10 : tid) = None /\ c_closed (conn_of (s_w closedS) 2) = true /\ s_closed (w_srv (s_w closedS)) = true /\
  LUpgraded 3 (Some EServerClosed) ∈ w_log (s_w s').
Proof. exact x_C38_example. Qed.

(** C37, violated: the loop may take up the disconnection of a connection before its connection.  In this state
    nothing is left to do, connection 1 is closed, and it stays registered and counted; OnDisconnect was not called
    although it is set and FireDisconnectAlways too. *)
Theorem C37_refuted :
  always_told loopG /\ reachable loopG leakS /\ loop_waits leakS /\
  s_connbuf (w_srv (s_w leakS)) = [] /\ s_disc (w_srv (s_w leakS)) = [] /\ w_spawn (s_w leakS) = [] /\
  c_closed (conn_of (s_w leakS) 1) = true /\ s_conns (w_srv (s_w leakS)) = {[1]} /\ s_count (w_srv (s_w leakS)) = 1%Z /\
  told (w_log (s_w leakS)) = [].
Proof. exact l_C37_refuted. Qed.
Print Assumptions C37_refuted.

(** C38, violated: Close was called before the server loop had started and has returned; then an Upgrade is accepted. *)
Theorem C38_early_refuted :
  reachable loopG early /\ s_th early !! (1 : tid) = None /\ s_closed (w_srv (s_w early)) = false /\
  steps loopG early late /\ s_th early !! (2 : tid) = None /\ upgraded 1 (w_log (s_w late)) = true /\
  s_conns (w_srv (s_w late)) = {[1]} /\ c_closed (conn_of (s_w late) 1) = false.
Proof. exact l_C38_early_refuted. Qed.
Print Assumptions C38_early_refuted.

(** C38, violated: Close of a running server has returned; an Upgrade that had read the flag before is accepted, and
    its connection is registered and stays open. *)
Theorem C38_race_refuted :
  reachable loopG passed /\ s_th passed !! (2 : tid) = None /\ s_closed (w_srv (s_w passed)) = true /\
  steps loopG passed leftover /\ upgraded 1 (w_log (s_w leftover)) = true /\
  s_conns (w_srv (s_w leftover)) = {[1]} /\ c_closed (conn_of (s_w leftover) 1) = false /\ s_acts (w_srv (s_w leftover)) = [].
Proof. exact l_C38_race_refuted. Qed.
Print Assumptions C38_race_refuted.

(** C38, violated: a second Close returns at once while the first has not closed any connection yet. *)
Theorem C38_second_refuted :
  reachable loopG second /\ is_Some (s_th second !! (10 : tid)) /\ s_th second !! (11 : tid) = None /\ s_next second = 12 /\
  s_conns (w_srv (s_w second)) = {[2]} /\ c_closed (conn_of (s_w second) 2) = false.
Proof. exact l_C38_second_refuted. Qed.
Print Assumptions C38_second_refuted.
