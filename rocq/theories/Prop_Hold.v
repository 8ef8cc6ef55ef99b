(** * Prop_Hold.v : property theorems (generated by tools/genprops.py from HoldProofs.v).
    Every proof is the lemma of the same name in HoldProofs.v. *)
From Coq Require Import ZArith.
From stdpp Require Import gmap strings list relations.
From Verif Require Import Go Errors Message World Lang Code Sem Spec_App Spec_Conn Spec_View Examples Scenes Spec_Stuck Spec_Cross CrossProofs HoldProofs.
From Verif Require Import HoldProofs.

(** C32 (missing: overlapping and later Connects, see C32_refuted).  While the first Connect of a namespace is under
    way ([p] is its process, started and not done), a message for that namespace is not handled: whoever handles
    it sleeps ([OProcWoken]), and till then nothing has been written, no callback has run and no namespace or room
    has changed, of any connection.  As soon as that Connect is done and nobody else connects ([proc_Done] from a
    count of 1), the message is handled exactly as if it arrived then. *)
Theorem C32_waits_partial : forall G c t w typ b p,
  let m := received G c typ b in
  onlyNative G c = false -> m_isInvalid m = false -> unasked G w c m ->
  m_event m <> OnNamespaceConnect -> m_event m <> OnNamespaceDisconnect ->
  c_procs (conn_of w c) !! m_namespace m = Some p -> p_done (proc_of w p) = false -> 0 < p_count (proc_of w p) ->
  exists w' g k, exec t (HandlePayload G c typ b) w = XBlocked w' (OProcWoken p g) k /\
    w_log w' = w_log w /\ (forall c', view w' c' = view w c') /\
    p_count (proc_of w' p) = p_count (proc_of w p) /\ p_gen (proc_of w' p) = g /\ 0 < p_waiters (proc_of w' p) /\
    forall w2 u, unasked G w2 c m -> c_procs (conn_of w2 c) !! m_namespace m = Some p ->
      p_done (proc_of w2 p) = false -> p_count (proc_of w2 p) = 1 -> p_gen (proc_of w2 p) = g -> 0 < p_waiters (proc_of w2 p) ->
      exec t (Do (OProcWoken p g) k) w2 = XBlocked w2 (OProcWoken p g) k /\
      exists w3, exec u (proc_Done p) w2 = XDone w3 tt /\ (forall c', view w3 c' = view w2 c') /\
        exec t (Do (OProcWoken p g) k) w3 = exec t (HandlePayload G c typ b) w3.
Proof. exact l_C32_waits_partial. Qed.
Print Assumptions C32_waits_partial.

(** C32 (missing: overlapping and later Connects, see C32_refuted).  In every schedule: a goroutine [t] that sleeps because a namespace
    is being connected ([p] is that process, [g] the generation of its sleepers) stays where it is until some goroutine does the
    WaitGroup.Done that ends a Connect (conn.go:661, process.go:69). *)
Theorem C32_until_partial : forall G s s' t p g k,
  reachable G s -> s_th s !! t = Some (Do (OProcWoken p g) k) -> p_gen (proc_of (s_w s) p) <= g -> steps G s s' ->
  s_th s' !! t = Some (Do (OProcWoken p g) k) \/
  exists s1 s2 u, steps G s s1 /\ at_op s1 u (OProcDone p) /\ step G (Step u) s1 = Some s2 /\ steps G s2 s'.
Proof. exact l_C32_until_partial. Qed.
Print Assumptions C32_until_partial.

(** The client has sent its connect request for "chat"; an event for "chat" would have to wait.  In the second state the
    event came before the answer, and the reader (goroutine 4) sleeps. *)
Example C32_waits_example : let s := play crossed connecting_run (init crossed) in let s' := play crossed crossed_run (init crossed) in
  let m := received crossed 2 TextMessage ";chat;;echo;0;0;hi" in
  reachable crossed s /\ c_out (conn_of (s_w s) 2) = [(TextMessage, "M"); (TextMessage, "$0;chat;;_OnNamespaceConnect;0;0;")] /\
  onlyNative crossed 2 = false /\ m_isInvalid m = false /\ unasked crossed (s_w s) 2 m /\
  m_event m = "echo" /\ c_procs (conn_of (s_w s) 2) !! m_namespace m = Some 1 /\
  p_done (proc_of (s_w s) 1) = false /\ p_count (proc_of (s_w s) 1) = 1 /\
  reachable crossed s' /\ at_op s' 4 (OProcWoken 1 0) /\ p_gen (proc_of (s_w s') 1) <= 0 /\ p_count (proc_of (s_w s') 1) = 1.
Proof. exact x_C32_waits_example. Qed.
