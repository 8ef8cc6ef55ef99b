(** * StoreProofs.v *)
From Coq Require Import ZArith Lia.
From stdpp Require Import gmap strings list.
From Verif Require Import Store Spec_Store.

(*@file Prop_Store.v
From Coq Require Import ZArith.
From stdpp Require Import gmap strings list.
From Verif Require Import Store Spec_Store. @*)

Lemma wrap64_id z : is_int z -> wrap64 z = z.
Proof. unfold is_int, wrap64. intros H. rewrite Z.mod_small by lia. lia. Qed.
Lemma wrap64_int z : is_int (wrap64 z).
Proof.
  unfold is_int, wrap64. assert (0 <= (z + 2 ^ 63) mod 2 ^ 64 < 2 ^ 64)%Z by (apply Z.mod_pos_bound; lia). lia.
Qed.

(*@prop C40.  Increment returns and stores one more than the counter (zero if absent or not an int;
    the largest int wraps around) and no other key changes. @*)
Lemma l_C40_increment : forall st key z st',
  Increment st key = (z, st') -> is_int (counter st key) ->
  (counter st key <> 2 ^ 63 - 1 -> z = counter st key + 1)%Z /\
  (counter st key = 2 ^ 63 - 1 -> z = - 2 ^ 63)%Z /\
  store_Get st' key = SInt z /\ counter st' key = z /\
  forall key', key' <> key -> store_Get st' key' = store_Get st key'.
Proof.
  intros st key z st'. unfold Increment. intros [= <- <-] Hi.
  assert (Hz : bump_value 1 (store_Get st key) = wrap64 (counter st key + 1)).
  { unfold counter. destruct (store_Get st key); cbn; [|done|]; symmetry; apply wrap64_id; unfold is_int; lia. }
  rewrite Hz. clear Hz. unfold is_int in Hi. split; [|split; [|split; [|split]]].
  - intros Hne. apply wrap64_id. unfold is_int. lia.
  - intros ->. reflexivity.
  - unfold store_Get, store_Set. by rewrite lookup_insert.
  - unfold counter, store_Get, store_Set. by rewrite lookup_insert.
  - intros key' Hk. unfold store_Get, store_Set. by rewrite lookup_insert_ne.
Qed.

(*@prop C40.  The same for Decrement. @*)
Lemma l_C40_decrement : forall st key z st',
  Decrement st key = (z, st') -> is_int (counter st key) ->
  (counter st key <> - 2 ^ 63 -> z = counter st key - 1)%Z /\
  (counter st key = - 2 ^ 63 -> z = 2 ^ 63 - 1)%Z /\
  store_Get st' key = SInt z /\ counter st' key = z /\
  forall key', key' <> key -> store_Get st' key' = store_Get st key'.
Proof.
  intros st key z st'. unfold Decrement. intros [= <- <-] Hi.
  assert (Hz : bump_value (-1) (store_Get st key) = wrap64 (counter st key - 1)).
  { unfold counter. destruct (store_Get st key); cbn; [|done|]; symmetry; apply wrap64_id; unfold is_int; lia. }
  rewrite Hz. clear Hz. unfold is_int in Hi. split; [|split; [|split; [|split]]].
  - intros Hne. apply wrap64_id. unfold is_int. lia.
  - intros ->. reflexivity.
  - unfold store_Get, store_Set. by rewrite lookup_insert.
  - unfold counter, store_Get, store_Set. by rewrite lookup_insert.
  - intros key' Hk. unfold store_Get, store_Set. by rewrite lookup_insert_ne.
Qed.

(*@prop C40.  [n] calls in a row count to [n]; in between any other keys may be used by nobody. @*)
Lemma l_C40_sequence : forall n st key, is_int (counter st key) -> (counter st key + Z.of_nat n < 2 ^ 63)%Z ->
  counter (times n (fun s => snd (Increment s key)) st) key = (counter st key + Z.of_nat n)%Z.
Proof.
  induction n as [|n IH]; intros st key Hi Hn; cbn [times]; [lia|].
  destruct (Increment st key) as [z st'] eqn:E.
  destruct (l_C40_increment st key z st' E Hi) as (H1 & _ & _ & Hc & _).
  cbn [snd]. unfold is_int in *. rewrite H1 in Hc by lia.
  rewrite IH; rewrite ?Hc; lia.
Qed.

(** ** Concurrent increments *)

Lemma lookup_repeat_insert {A} (i : nat) (x : A) l : i < length l -> <[i := x]> l !! i = Some x.
Proof. intros. by apply list_lookup_insert. Qed.

Definition isfin (t : sthread) : Prop := match t with TDone _ => true | _ => false end = true.
Global Instance isfin_dec t : Decision (isfin t). Proof. unfold isfin. apply _. Defined.

Lemma fin_insert ts i t t' : ts !! i = Some t ->
  length (filter isfin (<[i := t']> ts)) + (if decide (isfin t) then 1 else 0) =
  length (filter isfin ts) + (if decide (isfin t') then 1 else 0).
Proof.
  intros Hi. assert (Hlt := lookup_lt_Some _ _ _ Hi).
  rewrite insert_take_drop by done.
  rewrite <- (take_drop_middle ts i t Hi) at 3.
  rewrite !filter_app, !filter_cons, !app_length.
  repeat case_decide; cbn; lia.
Qed.

Lemma fin_le ts : length (filter isfin ts) <= length ts.
Proof. induction ts as [|t ts IH]; [done|]. rewrite filter_cons. case_decide; cbn; lia. Qed.

Definition inc_ok (key : string) (base : Z) (st : store) (ts : list sthread) : Prop :=
  let fin := length (filter isfin ts) in
  (base <= counter st key <= base + Z.of_nat fin)%Z /\
  (fin <> 0 -> (base < counter st key)%Z) /\
  (forall i t, ts !! i = Some t ->
     match t with
     | TStart d k => d = 1%Z /\ k = key
     | TRead d k x => d = 1%Z /\ k = key /\ (base <= match x with SInt z => z | _ => 0 end <= base + Z.of_nat fin)%Z
     | TDone _ => True
     end).

Lemma inc_step key base st ts i t st' t' :
  is_int base -> (base + Z.of_nat (length ts) < 2 ^ 63)%Z ->
  inc_ok key base st ts -> ts !! i = Some t -> sthread_step st t = (st', t') ->
  inc_ok key base st' (<[i := t']> ts).
Proof.
  intros Hb Hlen (H1 & H2 & H3) Hi Hs. assert (Hlt := lookup_lt_Some _ _ _ Hi).
  assert (Hf := fin_insert ts i t t' Hi). assert (Hle := fin_le ts).
  specialize (H3 i t Hi) as Ht.
  destruct t as [d k|d k x|z]; cbn in Hs; injection Hs as <- <-.
  - destruct Ht as [-> ->].
    rewrite decide_False, decide_False in Hf by (unfold isfin; discriminate).
    split; [|split].
    + replace (length (filter isfin _)) with (length (filter isfin ts)) by lia. done.
    + replace (length (filter isfin _)) with (length (filter isfin ts)) by lia. done.
    + intros j u Hj. replace (length (filter isfin _)) with (length (filter isfin ts)) by lia.
      destruct (decide (i = j)) as [<-|Hne].
      * rewrite list_lookup_insert in Hj by done. injection Hj as <-. split; [done|]. split; [done|].
        unfold counter in H1. done.
      * rewrite list_lookup_insert_ne in Hj by done. by apply (H3 j).
  - destruct Ht as (-> & -> & Hx).
    rewrite decide_False, decide_True in Hf by (try done; unfold isfin; discriminate).
    set (n := length (filter isfin ts)) in *.
    assert (Hn : length (filter isfin (<[i:=TDone (bump_value 1 x)]> ts)) = S n) by lia.
    assert (Hv : bump_value 1 x = (match x with SInt z => z | _ => 0 end + 1)%Z).
    { assert (n < length ts).
      { enough (length (filter isfin (<[i:=TDone (bump_value 1 x)]> ts)) <= length ts) by lia.
        etrans; [apply fin_le|]. by rewrite insert_length. }
      destruct x; cbn; try lia. apply wrap64_id. unfold is_int in *. lia. }
    assert (Hc : counter (store_Set st key (SInt (bump_value 1 x))) key = (match x with SInt z => z | _ => 0 end + 1)%Z).
    { unfold counter, store_Get, store_Set. rewrite lookup_insert. cbn. done. }
    unfold inc_ok. rewrite Hn, Hc. split; [lia|]. split; [lia|].
    intros j u Hj. destruct (decide (i = j)) as [<-|Hne].
    + rewrite list_lookup_insert in Hj by done. injection Hj as <-. done.
    + rewrite list_lookup_insert_ne in Hj by done. specialize (H3 j u Hj). destruct u; try done.
      destruct H3 as (-> & -> & H3). split; [done|]. split; [done|]. lia.
  - rewrite list_insert_id by done. done.
Qed.

(*@prop C40.  In every schedule of any number of concurrent Increments of one key the counter never
    runs backwards below its start, and when all have finished it has grown by at least one and at
    most by the number of calls. @*)
Lemma l_C40_concurrent : forall n key st sched st' ts,
  is_int (counter st key) -> (counter st key + Z.of_nat n < 2 ^ 63)%Z ->
  store_run sched st (replicate n (TStart 1 key)) = (st', ts) ->
  (counter st key <= counter st' key <= counter st key + Z.of_nat n)%Z /\
  (n <> 0 -> Forall finished ts -> (counter st key + 1 <= counter st' key)%Z).
Proof.
  intros n key st sched st' ts Hi Hn Hr.
  assert (Hgen : forall sched s ts0 st' ts, length ts0 = n -> inc_ok key (counter st key) s ts0 ->
    store_run sched s ts0 = (st', ts) -> inc_ok key (counter st key) st' ts /\ length ts = n).
  { clear sched Hr st' ts. induction sched as [|i sched IH]; intros s ts0 st' ts Hl Hok Hr; cbn in Hr.
    - injection Hr as <- <-. done.
    - destruct (ts0 !! i) as [t|] eqn:Et; [|by eapply IH].
      destruct (sthread_step s t) as [s' t'] eqn:Es. eapply IH; [|..|exact Hr].
      + by rewrite insert_length.
      + eapply inc_step; [done| |done|done|done]. by rewrite Hl. }
  destruct (Hgen sched st (replicate n (TStart 1 key)) st' ts) as [(H1 & H2 & H3) Hl]; [by rewrite replicate_length| |done|].
  { assert (Hf : length (filter isfin (replicate n (TStart 1 key))) = 0).
    { clear. induction n as [|n IH]; [done|]. cbn [replicate]. rewrite filter_cons_False by (unfold isfin; discriminate). done. }
    unfold inc_ok. rewrite Hf. split; [lia|]. split; [lia|].
    intros i t Ht. apply lookup_replicate in Ht as [-> _]. done. }
  assert (Hle := fin_le ts). split; [lia|].
  intros Hn0 Hall. enough (length (filter isfin ts) <> 0) by (specialize (H2 ltac:(done)); lia).
  destruct ts as [|t ts]; [cbn in Hl; lia|]. apply Forall_cons in Hall as [[z ->] _].
  rewrite filter_cons_True by done. done.
Qed.

(*@ex
Example C40_example : counter (<["hits" := SInt 5]> ∅) "hits" = 5%Z /\
  let r := store_run [0; 1; 1; 0] (<["hits" := SInt 5]> ∅) (replicate 2 (TStart 1 "hits")) in
  snd r = [TDone 6; TDone 6] /\ counter (fst r) "hits" = 6%Z.
Proof. repeat split. Qed.
@*)

(*@prop C40 (limit of the guarantee).  For every number of concurrent Increments there is a schedule in
    which they all finish and the counter has grown by one only: all other updates are lost. @*)
Lemma l_C40_lost_updates_refuted : forall n key st, n <> 0 -> is_int (counter st key) -> (counter st key + 1 < 2 ^ 63)%Z ->
  exists sched st' ts,
    store_run sched st (replicate n (TStart 1 key)) = (st', ts) /\ Forall finished ts /\
    counter st' key = (counter st key + 1)%Z.
Proof.
  intros n key st Hn Hi Hlt.
  assert (Hread : forall k rest, store_run (seq (length rest) k) st (rest ++ replicate k (TStart 1 key)) =
    (st, rest ++ replicate k (TRead 1 key (store_Get st key)))).
  { induction k as [|k IH]; intros rest; [done|]. cbn [seq store_run replicate].
    rewrite lookup_app_r, Nat.sub_diag by lia. cbn.
    rewrite insert_app_r_alt, Nat.sub_diag by lia. cbn.
    specialize (IH (rest ++ [TRead 1 key (store_Get st key)])).
    rewrite app_length in IH. cbn in IH. rewrite Nat.add_1_r in IH. rewrite <- !app_assoc in IH. exact IH. }
  set (z := bump_value 1 (store_Get st key)).
  assert (Hz : z = (counter st key + 1)%Z).
  { unfold z, counter in *. destruct (store_Get st key); cbn; try lia. apply wrap64_id. unfold is_int in *. lia. }
  assert (Hset : forall k rest s, k <> 0 \/ counter s key = z -> exists s',
    store_run (seq (length rest) k) s (rest ++ replicate k (TRead 1 key (store_Get st key))) = (s', rest ++ replicate k (TDone z)) /\
    counter s' key = z).
  { induction k as [|k IH]; intros rest s Hk; [exists s; split; [done|]; destruct Hk; [lia|done]|].
    cbn [seq store_run replicate]. rewrite lookup_app_r, Nat.sub_diag by lia. cbn.
    rewrite insert_app_r_alt, Nat.sub_diag by lia. cbn. fold z.
    destruct (IH (rest ++ [TDone z]) (store_Set s key (SInt z))) as (s' & Hr & Hc).
    { right. unfold counter, store_Get, store_Set. by rewrite lookup_insert. }
    exists s'. split; [|done]. rewrite app_length in Hr. cbn in Hr. rewrite Nat.add_1_r in Hr. rewrite <- !app_assoc in Hr. exact Hr. }
  destruct (Hset n [] st) as (s' & Hr & Hc); [by left|].
  assert (Happ : forall l1 l2 s ts, store_run (l1 ++ l2) s ts = let '(s1, ts1) := store_run l1 s ts in store_run l2 s1 ts1).
  { induction l1 as [|i l1 IH]; intros l2 s ts; [done|]. cbn.
    destruct (ts !! i) as [t|]; [|apply IH]. destruct (sthread_step s t). apply IH. }
  exists (seq 0 n ++ seq 0 n), s', (replicate n (TDone z)). split; [|split].
  - rewrite Happ. assert (Hr0 := Hread n []). cbn [app length] in Hr0, Hr. rewrite Hr0. exact Hr.
  - apply Forall_replicate. by eexists.
  - by rewrite Hc.
Qed.
