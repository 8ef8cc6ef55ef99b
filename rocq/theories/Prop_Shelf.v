(** * Prop_Shelf.v : property theorems (generated by tools/genprops.py from ShelfProofs.v).
    Every proof is the lemma of the same name in ShelfProofs.v. *)
From Coq Require Import ZArith.
From stdpp Require Import gmap strings list relations.
From Verif Require Store.
From Verif Require Import Go Errors Message World Lang Code Sem Spec_App Spec_Shelf Shelf CarelessProofs Examples ShelfProofs.
From Verif Require Import ShelfProofs.

(** C40.  Set, Get, Increment and Decrement of the running process do what C40_increment and C40_decrement are about, at once, in whatever state the process is,
    and change nothing but the store of that connection. *)
Theorem C40_process : forall G t w c k v,
  (exists w', exec t (impl G (ASet c k v)) w = XDone w' tt /\ shelf w' c = Store.store_Set (shelf w c) k (stored v) /\ others_kept c w w') /\
  (exists r, exec t (impl G (AGet c k)) w = XDone w r /\ Store.store_Get (shelf w c) k = from_option stored Store.SNil r) /\
  (exists w' z, exec t (impl G (AIncrement c k)) w = XDone w' z /\ Store.Increment (shelf w c) k = (z, shelf w' c) /\ others_kept c w w') /\
  (exists w' z, exec t (impl G (ADecrement c k)) w = XDone w' z /\ Store.Decrement (shelf w c) k = (z, shelf w' c) /\ others_kept c w w').
Proof. exact l_C40_process. Qed.
Print Assumptions C40_process.

(** C40.  In every schedule the store of a connection holds only what the application puts there: whatever Get can return for a key of a connection was given to Set for the
    same key of the same connection, or is an int and the key is one the application counts with.  ([allowed] says which calls the application makes;
    the last two hypotheses are about calls that the library makes of itself.) *)
Theorem C40_only_put : forall (allowed : api -> Prop) G s c k v,
  user_app allowed G -> (forall c x ns d, allowed (AConnectLoop c x ns d)) -> (forall c x ns cur, allowed (AWaitConnect c x ns cur)) ->
  reachable G s -> shelf (s_w s) c !! k = Some (stored v) ->
  allowed (ASet c k v) \/ (exists z, v = SInt z /\ (allowed (AIncrement c k) \/ allowed (ADecrement c k))).
Proof. exact l_C40_only_put. Qed.
Print Assumptions C40_only_put.

(** C40_only_put.  After a connection to the namespace and a Set both keys are there, and the hypotheses of C40_only_put hold. *)
Example C40_only_put_example : user_app count_calls countG /\ reachable countG countS /\
  shelf (s_w countS) 1 !! "visits" = Some (stored (SInt 1)) /\ shelf (s_w countS) 1 !! "name" = Some (stored (SOther 7)).
Proof. exact x_C40_only_put_example. Qed.
