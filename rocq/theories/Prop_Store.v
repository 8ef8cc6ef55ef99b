(** * Prop_Store.v : property theorems (generated by tools/genprops.py from StoreProofs.v).
    Every proof is the lemma of the same name in StoreProofs.v. *)
From Coq Require Import ZArith.
From stdpp Require Import gmap strings list.
From Verif Require Import Store Spec_Store.
From Verif Require Import StoreProofs.

(** C40.  Increment returns and stores one more than the counter (zero if absent or not an int;
    the largest int wraps around) and no other key changes. *)
Theorem C40_increment : forall st key z st',
  Increment st key = (z, st') -> is_int (counter st key) ->
  (counter st key <> 2 ^ 63 - 1 -> z = counter st key + 1)%Z /\
  (counter st key = 2 ^ 63 - 1 -> z = - 2 ^ 63)%Z /\
  store_Get st' key = SInt z /\ counter st' key = z /\
  forall key', key' <> key -> store_Get st' key' = store_Get st key'.
Proof. exact l_C40_increment. Qed.
Print Assumptions C40_increment.

(** C40.  The same for Decrement. *)
Theorem C40_decrement : forall st key z st',
  Decrement st key = (z, st') -> is_int (counter st key) ->
  (counter st key <> - 2 ^ 63 -> z = counter st key - 1)%Z /\
  (counter st key = - 2 ^ 63 -> z = 2 ^ 63 - 1)%Z /\
  store_Get st' key = SInt z /\ counter st' key = z /\
  forall key', key' <> key -> store_Get st' key' = store_Get st key'.
Proof. exact l_C40_decrement. Qed.
Print Assumptions C40_decrement.

(** C40.  [n] calls in a row count to [n]; in between any other keys may be used by nobody. *)
Theorem C40_sequence : forall n st key, is_int (counter st key) -> (counter st key + Z.of_nat n < 2 ^ 63)%Z ->
  counter (times n (fun s => snd (Increment s key)) st) key = (counter st key + Z.of_nat n)%Z.
Proof. exact l_C40_sequence. Qed.
Print Assumptions C40_sequence.

(** C40.  In every schedule of any number of concurrent Increments of one key the counter never
    runs backwards below its start, and when all have finished it has grown by at least one and at
    most by the number of calls. *)
Theorem C40_concurrent : forall n key st sched st' ts,
  is_int (counter st key) -> (counter st key + Z.of_nat n < 2 ^ 63)%Z ->
  store_run sched st (replicate n (TStart 1 key)) = (st', ts) ->
  (counter st key <= counter st' key <= counter st key + Z.of_nat n)%Z /\
  (n <> 0 -> Forall finished ts -> (counter st key + 1 <= counter st' key)%Z).
Proof. exact l_C40_concurrent. Qed.
Print Assumptions C40_concurrent.

Example C40_example : counter (<["hits" := SInt 5]> ∅) "hits" = 5%Z /\
  let r := store_run [0; 1; 1; 0] (<["hits" := SInt 5]> ∅) (replicate 2 (TStart 1 "hits")) in
  snd r = [TDone 6; TDone 6] /\ counter (fst r) "hits" = 6%Z.
Proof. repeat split. Qed.

(** C40 (limit of the guarantee).  For every number of concurrent Increments there is a schedule in
    which they all finish and the counter has grown by one only: all other updates are lost. *)
Theorem C40_lost_updates_refuted : forall n key st, n <> 0 -> is_int (counter st key) -> (counter st key + 1 < 2 ^ 63)%Z ->
  exists sched st' ts,
    store_run sched st (replicate n (TStart 1 key)) = (st', ts) /\ Forall finished ts /\
    counter st' key = (counter st key + 1)%Z.
Proof. exact l_C40_lost_updates_refuted. Qed.
Print Assumptions C40_lost_updates_refuted.
