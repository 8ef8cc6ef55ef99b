(** * Prop_Jam.v : property theorems (generated by tools/genprops.py from JamProofs.v).
    Every proof is the lemma of the same name in JamProofs.v. *)
From Coq Require Import ZArith.
From stdpp Require Import gmap strings list relations.
From Verif Require Import Go Errors Message World Lang Code Sem Spec_App Spec_Async Spec_Stuck Spec_Jam Examples CarelessProofs JamProofs.
From Verif Require Import JamProofs.

(** C70.  Violated: a callback that the server runs because a write failed while a broadcast was delivered must not broadcast.  If it does, its
    goroutine never moves again, and from then on no broadcast is taken over and none is offered to any connection, whatever happens: every goroutine
    that comes to broadcast or to deliver waits for ever too. *)
Theorem C70_refuted : forall G s t a,
  user_app (fun _ => True) G -> g_sync G = false -> g_exch G = None -> reachable G s -> s_crash s = None ->
  delivering s t -> calls s t a -> broadcast_call G a ->
  exists s1, steps G s s1 /\ stuck G s1 t /\
    forall s2, steps G s1 s2 -> sent s2 = sent s /\ (forall c, got_batches c s2 = got_batches c s) /\
      forall u, at_op s2 u OBLock -> stuck G s2 u.
Proof. exact l_C70_refuted. Qed.
Print Assumptions C70_refuted.

(** C70 (the case of no delivery under way; missing: Broadcasts that have to wait for deliveries).  While nobody holds the lock of the broadcaster, Broadcast called by any
    goroutine, with any sender to leave out, is taken over and returns after at most seven steps of its own. *)
Theorem C70_free_partial : forall G s t e msgs k,
  application (careful G) G -> g_sync G = false -> g_exch G = None -> reachable G s -> s_crash s = None -> b_mu (w_srv (s_w s)) = None ->
  valid_api (s_w s) (ABroadcast e msgs) = true -> s_th s !! t = Some (Call (ABroadcast e msgs) k) ->
  exists n batch s', n <= 7 /\ run G (replicate n (Step t)) s = Some s' /\ s_th s' !! t = Some (k tt) /\
    sent s' = sent s ++ [batch] /\ length batch = length msgs /\ (e = None -> batch = msgs) /\ b_mu (w_srv (s_w s')) = None.
Proof. exact l_C70_free_partial. Qed.
Print Assumptions C70_free_partial.

(** C70.  Connection 1 is in "chat".  Its socket breaks, an application goroutine broadcasts, and the goroutine that delivers to connection 1
    (goroutine 2) has failed to write, closes it and runs OnNamespaceDisconnect, which broadcasts: the hypotheses of C70_refuted hold. *)
Example C70_example : user_app (fun _ => True) byeG /\ reachable byeG byeS /\ s_crash byeS = None /\ delivering byeS 2 /\
  calls byeS 2 (ANSBroadcast (Some byeN) true [bye]) /\ broadcast_call byeG (ANSBroadcast (Some byeN) true [bye]) /\
  sent byeS = [[bye]] /\ got_batches 1 byeS = [[bye]].
Proof. exact x_C70_example. Qed.

(** C70_free.  Connection 1 has finished its handshake, and goroutine 4 of the application broadcasts: the hypotheses of C70_free_partial hold. *)
Example C70_free_example : application (careful freeG) freeG /\ reachable freeG freeS /\ s_crash freeS = None /\ b_mu (w_srv (s_w freeS)) = None /\
  valid_api (s_w freeS) (ABroadcast (Some (SendExclude "id-1")) [bye]) = true /\
  s_th freeS !! (4 : tid) = Some (Call (ABroadcast (Some (SendExclude "id-1")) [bye]) (fun _ => Ret None)).
Proof. exact x_C70_free_example. Qed.
