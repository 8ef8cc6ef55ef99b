(** * Prop_Async.v : property theorems (generated by tools/genprops.py from AsyncProofs.v).
    Every proof is the lemma of the same name in AsyncProofs.v. *)
From Coq Require Import ZArith.
From stdpp Require Import gmap strings list relations.
From Verif Require Import Go Errors Message World Lang Code Sem Spec_App Spec_Async Examples AsyncProofs.
From Verif Require Import AsyncProofs.

(** C33.  In every schedule of any application with an asynchronous broadcaster: what a connection has received so far
    are broadcast batches, in the order of the broadcasts (batches may be missing or repeated), and not more of them than
    were broadcast. *)
Theorem C33_order : forall G s c, user_app (fun _ => True) G -> g_sync G = false -> reachable G s ->
  in_order (got_batches c s) (sent s) /\ length (got_batches c s) <= length (sent s).
Proof. exact l_C33_order. Qed.
Print Assumptions C33_order.

(** C33.  A batch is received only after it was broadcast. *)
Theorem C33_origin : forall G s c m l2 l1, user_app (fun _ => True) G -> g_sync G = false -> reachable G s ->
  w_log (s_w s) = l2 ++ LBatch c m :: l1 -> m ∈ sent_in l1.
Proof. exact l_C33_origin. Qed.
Print Assumptions C33_origin.

(** C33.  A connection that waits for a broadcast while none is under way, and that waits again later, when again none
    is under way, has in the meantime received some of the batches broadcast in between, in order, not more than were
    broadcast, and at least one if there was any. *)
Theorem C33_served : forall G s s' c new, user_app (fun _ => True) G -> g_sync G = false -> reachable G s ->
  settled s -> waits_for_broadcast s c -> steps G s s' -> settled s' -> waits_for_broadcast s' c ->
  sent s' = sent s ++ new ->
  exists r, got_batches c s' = got_batches c s ++ r /\ in_order r new /\ length r <= length new /\ (new <> [] -> r <> []).
Proof. exact l_C33_served. Qed.
Print Assumptions C33_served.

(** C33.  In particular, a connection that waits when a broadcast starts and waits again when it is over, with no other
    broadcast in between, receives the batch exactly once. *)
Theorem C33_once : forall G s s' c m, user_app (fun _ => True) G -> g_sync G = false -> reachable G s ->
  settled s -> waits_for_broadcast s c -> steps G s s' -> settled s' -> waits_for_broadcast s' c ->
  sent s' = sent s ++ [m] -> got_batches c s' = got_batches c s ++ [m].
Proof. exact l_C33_once. Qed.
Print Assumptions C33_once.

(** C33.  Not every batch is received, and a batch may be received twice, although the connection is there all the
    time: it waits for a broadcast before the two broadcasts and after them, when both are over.  In the one run it has received
    only the first batch, in the other the second one twice. *)
Theorem C33_refuted : exists G s c one two, one <> two /\
  user_app (fun _ => True) G /\ g_sync G = false /\ reachable G s /\ settled s /\ waits_for_broadcast s c /\
  (exists s', steps G s s' /\ settled s' /\ waits_for_broadcast s' c /\ sent s' = sent s ++ [[one]; [two]] /\ got_batches c s' = got_batches c s ++ [[one]]) /\
  (exists s', steps G s s' /\ settled s' /\ waits_for_broadcast s' c /\ sent s' = sent s ++ [[one]; [two]] /\ got_batches c s' = got_batches c s ++ [[two]; [two]]).
Proof. exact l_C33_refuted. Qed.
Print Assumptions C33_refuted.

(** C33. An accepted connection waits, a batch is broadcast, the connection is served it and waits again. *)
Example C33_example :
  user_app (fun _ => True) asyncG /\ g_sync asyncG = false /\ reachable asyncG asyncS /\ settled asyncS /\ waits_for_broadcast asyncS 1 /\
  steps asyncG asyncS onceS /\ settled onceS /\ waits_for_broadcast onceS 1 /\ sent onceS = sent asyncS ++ [[news 0]] /\
  got_batches 1 onceS = [[news 0]].
Proof. exact x_C33_example. Qed.
