(** * Spec_Async.v : what the theorems about the asynchronous broadcaster talk
    about.  The log (newest event first) records every batch that the
    broadcaster takes over ([LBcast]) and every batch that is offered to a
    connection ([LBatch]). *)
From Coq Require Import ZArith.
From stdpp Require Import gmap strings list relations.
From Verif Require Import Go Errors Message World Lang Code Sem.

(** The batches broadcast so far and the batches offered to [c] so far, oldest first. *)
Fixpoint sent_in (l : list event) : list (list message) :=
  match l with
  | [] => []
  | LBcast msgs :: l' => sent_in l' ++ [msgs]
  | _ :: l' => sent_in l'
  end.
Fixpoint got_in (c : cid) (l : list event) : list (list message) :=
  match l with
  | [] => []
  | LBatch c' msgs :: l' => if decide (c' = c) then got_in c l' ++ [msgs] else got_in c l'
  | _ :: l' => got_in c l'
  end.
Definition sent (s : sys) : list (list message) := sent_in (w_log (s_w s)).
Definition got_batches (c : cid) (s : sys) : list (list message) := got_in c (w_log (s_w s)).

(** [r] is made of elements of [b], in the order of [b]; an element may be left
    out or repeated. *)
Definition in_order {A} (r b : list A) : Prop :=
  exists at_ : list nat, (forall j k i i', j <= k -> at_ !! j = Some i -> at_ !! k = Some i' -> i <= i') /\
    Forall2 (fun i x => b !! i = Some x) at_ r.

(** The goroutine that serves [c] is blocked, waiting for a broadcast. *)
Definition waits_for_broadcast (s : sys) (c : cid) : Prop :=
  exists (t : tid) g k, s_th s !! t = Some (Do (OBSelect g c) k) /\ ostep t (s_w s) (OBSelect g c) = Blocked.

(** No broadcast is under way: every batch taken over was also signalled. *)
Definition settled (s : sys) : Prop := size (b_closed (w_srv (s_w s))) = length (sent s).
