(** * ShelfProofs.v : the store of a connection in the running process (C40). *)
From Coq Require Import ZArith.
From stdpp Require Import gmap strings list relations.
From RecordUpdate Require Import RecordUpdate.
From Verif Require Store.
From Verif Require Import Go Errors Message World Lang Code Sem ExecProofs Logic Spec_App Spec_Shelf Shelf CarelessProofs IdentProofs Examples.

(*@file Prop_Shelf.v
From Coq Require Import ZArith.
From stdpp Require Import gmap strings list relations.
From Verif Require Store.
From Verif Require Import Go Errors Message World Lang Code Sem Spec_App Spec_Shelf Shelf CarelessProofs Examples ShelfProofs. @*)

Lemma shelf_set w c k v : shelf (upd_conn c (fun x => x <| c_store ::= <[k := v]> |>) w) c = Store.store_Set (shelf w c) k (stored v) /\
  others_kept c w (upd_conn c (fun x => x <| c_store ::= <[k := v]> |>) w).
Proof.
  unfold shelf, others_kept. split.
  - rewrite conn_upd_eq. cbn. apply fmap_insert.
  - split; [|split; [reflexivity|]]; [intros c' H; apply conn_upd_ne; exact H|]. eexists. rewrite conn_upd_eq. reflexivity.
Qed.
(*@prop C40.  Set, Get, Increment and Decrement of the running process do what C40_increment and C40_decrement are about, at once, in whatever state the process is,
    and change nothing but the store of that connection. @*)
Lemma l_C40_process : forall G t w c k v,
  (exists w', exec t (impl G (ASet c k v)) w = XDone w' tt /\ shelf w' c = Store.store_Set (shelf w c) k (stored v) /\ others_kept c w w') /\
  (exists r, exec t (impl G (AGet c k)) w = XDone w r /\ Store.store_Get (shelf w c) k = from_option stored Store.SNil r) /\
  (exists w' z, exec t (impl G (AIncrement c k)) w = XDone w' z /\ Store.Increment (shelf w c) k = (z, shelf w' c) /\ others_kept c w w') /\
  (exists w' z, exec t (impl G (ADecrement c k)) w = XDone w' z /\ Store.Decrement (shelf w c) k = (z, shelf w' c) /\ others_kept c w w').
Proof.
  intros G t w c k v. split; [|split; [|split]].
  - eexists. split; [reflexivity|]. apply shelf_set.
  - eexists. split; [reflexivity|]. unfold Store.store_Get, shelf. rewrite lookup_fmap. destruct (c_store (conn_of w c) !! k); reflexivity.
  - destruct (c_store (conn_of w c) !! k) as [[z|x]|] eqn:E.
    + eexists _, (Store.wrap64 (z + 1)). split; [cbn [impl]; unfold add_counter; cbn; rewrite E; reflexivity|].
      split; [|apply shelf_set]. rewrite (proj1 (shelf_set w c k _)). unfold Store.Increment, Store.store_Get, shelf. rewrite lookup_fmap, E. reflexivity.
    + eexists _, 1%Z. split; [cbn [impl]; unfold add_counter; cbn; rewrite E; reflexivity|].
      split; [|apply shelf_set]. rewrite (proj1 (shelf_set w c k _)). unfold Store.Increment, Store.store_Get, shelf. rewrite lookup_fmap, E. reflexivity.
    + eexists _, 1%Z. split; [cbn [impl]; unfold add_counter; cbn; rewrite E; reflexivity|].
      split; [|apply shelf_set]. rewrite (proj1 (shelf_set w c k _)). unfold Store.Increment, Store.store_Get, shelf. rewrite lookup_fmap, E. reflexivity.
  - destruct (c_store (conn_of w c) !! k) as [[z|x]|] eqn:E.
    + eexists _, (Store.wrap64 (z + -1)). split; [cbn [impl]; unfold add_counter; cbn; rewrite E; reflexivity|].
      split; [|apply shelf_set]. rewrite (proj1 (shelf_set w c k _)). unfold Store.Decrement, Store.store_Get, shelf. rewrite lookup_fmap, E. reflexivity.
    + eexists _, (-1)%Z. split; [cbn [impl]; unfold add_counter; cbn; rewrite E; reflexivity|].
      split; [|apply shelf_set]. rewrite (proj1 (shelf_set w c k _)). unfold Store.Decrement, Store.store_Get, shelf. rewrite lookup_fmap, E. reflexivity.
    + eexists _, (-1)%Z. split; [cbn [impl]; unfold add_counter; cbn; rewrite E; reflexivity|].
      split; [|apply shelf_set]. rewrite (proj1 (shelf_set w c k _)). unfold Store.Decrement, Store.store_Get, shelf. rewrite lookup_fmap, E. reflexivity.
Qed.

(*@prop C40.  In every schedule the store of a connection holds only what the application puts there: whatever Get can return for a key of a connection was given to Set for the
    same key of the same connection, or is an int and the key is one the application counts with.  ([allowed] says which calls the application makes;
    the last two hypotheses are about calls that the library makes of itself.) @*)
Lemma l_C40_only_put : forall (allowed : api -> Prop) G s c k v,
  user_app allowed G -> (forall c x ns d, allowed (AConnectLoop c x ns d)) -> (forall c x ns cur, allowed (AWaitConnect c x ns cur)) ->
  reachable G s -> shelf (s_w s) c !! k = Some (stored v) ->
  allowed (ASet c k v) \/ (exists z, v = SInt z /\ (allowed (AIncrement c k) \/ allowed (ADecrement c k))).
Proof.
  intros allowed G s c k v HA H1 H2 Hr Hv. destruct (shelf_reachable G allowed HA H1 H2 s Hr) as (_ & Ls & HI & _). apply HI.
  unfold shelf in Hv. rewrite lookup_fmap in Hv. destruct (c_store (conn_of (s_w s) c) !! k) as [v'|]; [|discriminate]. destruct v', v; cbn in Hv; congruence.
Qed.
(** A server whose application counts in one callback and remembers a name in another goroutine. *)
Definition countA : gmap string (gmap string handler) :=
  {["chat" := {[OnNamespaceConnect := fun n m => Call (AIncrement (n_conn n) "visits") (fun _ => Ret None)]}]}.
Definition countG : cfg := alone countA (Call (ASet 1 "name" (SOther 7)) (fun _ => Ret tt)).
Definition count_calls (a : api) : Prop :=
  match a with ASet c k v => c = 1 /\ k = "name" /\ v = SOther 7 | AIncrement c k => k = "visits" | ADecrement _ _ => False | _ => True end.
Definition countS : sys := play countG (handshake1 ++ [Act1 (Env (EDeliver 1 TextMessage "$1;chat;;_OnNamespaceConnect;0;0;")); Go 3;
  Act1 (Env (EGo (TUser 0))); Go 4]) (init countG).
(*@exl C40_only_put.  After a connection to the namespace and a Set both keys are there, and the hypotheses of C40_only_put hold. @*)
Lemma x_C40_only_put_example : user_app count_calls countG /\ reachable countG countS /\
  shelf (s_w countS) 1 !! "visits" = Some (stored (SInt 1)) /\ shelf (s_w countS) 1 !! "name" = Some (stored (SOther 7)).
Proof.
  split.
  { constructor; try discriminate; try (intros; exact Logic.I).
    - intros c ns evs ev h n m H1 H2. change (countA !! ns = Some evs) in H1. unfold countA in H1. apply lookup_singleton_Some in H1 as [<- <-]. apply lookup_singleton_Some in H2 as [<- <-].
      cbn. split; [reflexivity|]. intros r. exact Logic.I.
    - intros k. cbn. split; [repeat split|]. intros r. exact Logic.I. }
  split; [apply play_reachable|]. split; vm_compute; reflexivity.
Qed.
