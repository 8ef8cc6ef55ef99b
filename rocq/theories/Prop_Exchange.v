(** * Prop_Exchange.v : property theorems (generated by tools/genprops.py from ExchangeProofs.v).
    Every proof is the lemma of the same name in ExchangeProofs.v. *)
From Coq Require Import String Ascii.
From stdpp Require Import gmap strings list.
From Verif Require Import Go Errors Message Spec_Wire Exchange Spec_Exchange.
From Verif Require Import ExchangeProofs.

(** C43.  However many exchanges were registered, Publish, Subscribe, Unsubscribe and OnDisconnect reach every
    accepted one, each once and in the order of registration, and Publish reports success exactly if
    all of them did. *)
Theorem C43_every_exchange : forall l x, register l = Some x ->
  (forall msgs, exch_Publish x msgs =
     (forallb (fun y => x_publish y msgs) (filter accepted l), reaches_all (filter accepted l) (CPublish msgs))) /\
  (forall c ns, exch_Subscribe x c ns = reaches_all (filter accepted l) (CSubscribe c ns)) /\
  (forall c ns, exch_Unsubscribe x c ns = reaches_all (filter accepted l) (CUnsubscribe c ns)) /\
  (forall c, exch_OnDisconnect x c = reaches_all (filter accepted l) (COnDisconnect c)).
Proof. exact l_C43_every_exchange. Qed.
Print Assumptions C43_every_exchange.

(** C43.  OnConnect asks the exchanges in the order of registration and stops at the first that fails; its
    error is the result. *)
Theorem C43_connect_stops : forall l x c, register l = Some x ->
  (forall pre y post e, filter accepted l = pre ++ y :: post -> (forall z, z ∈ pre -> x_onConnect z c = None) ->
     x_onConnect y c = Some e -> exch_OnConnect x c = (Some e, reaches_all (pre ++ [y]) (COnConnect c))) /\
  ((forall z, z ∈ filter accepted l -> x_onConnect z c = None) ->
     exch_OnConnect x c = (None, reaches_all (filter accepted l) (COnConnect c))).
Proof. exact l_C43_connect_stops. Qed.
Print Assumptions C43_connect_stops.

(** C43.  Ask returns what the first exchange returned if that was no error, and asks nobody else. *)
Theorem C43_ask_first : forall l x y rest m token r, register l = Some x -> filter accepted l = y :: rest ->
  x_ask y m token = (r, None) -> exch_Ask x m token = (r, None, [(x_id y, CAsk m token)]).
Proof. exact l_C43_ask_first. Qed.
Print Assumptions C43_ask_first.

(** C43 (violated).  If the first exchange fails, the second one is not asked the question: it is asked with
    whatever message the first one returned beside its error. *)
Theorem C43_ask_fallback_refuted : forall y z m token r e,
  accepted y -> accepted z -> x_ask y m token = (r, Some e) ->
  exists x, register [y; z] = Some x /\
  exch_Ask x m token = (x_ask z r token, [(x_id y, CAsk m token); (x_id z, CAsk r token)]).
Proof. exact l_C43_ask_fallback_refuted. Qed.
Print Assumptions C43_ask_fallback_refuted.

(** C43.  NotifyAsk tries the exchanges in order, each with the same message, until one succeeds. *)
Theorem C43_notify : forall l x m token pre y post, register l = Some x ->
  filter accepted l = pre ++ y :: post -> (forall z, z ∈ pre -> x_notify z m token <> None) ->
  x_notify y m token = None -> exch_NotifyAsk x m token = (None, reaches_all (pre ++ [y]) (CNotifyAsk m token)).
Proof. exact l_C43_notify. Qed.
Print Assumptions C43_notify.

Definition C43_leaf (i : nat) (init : option (option gerr)) (ok : bool) : leaf :=
  Leaf i init (fun _ => if ok then None else Some EWrite) (fun _ => ok)
    (fun m _ => if ok then (set_body "pong" m, None) else (no_message, Some EWrite)) (fun _ _ => if ok then None else Some EWrite).
Example C43_example : exists x,
  register [C43_leaf 1 None false; C43_leaf 2 (Some (Some EWrite)) true; C43_leaf 3 (Some None) true] = Some x /\
  exch_Publish x [no_message] = (false, [(1, CPublish [no_message]); (3, CPublish [no_message])]) /\
  exch_OnConnect x 7 = (Some EWrite, [(1, COnConnect 7)]) /\
  exch_Ask x (set_event "ping" no_message) "5" =
    (set_body "pong" no_message, None, [(1, CAsk (set_event "ping" no_message) "5"); (3, CAsk no_message "5")]).
Proof. eexists. repeat split. Qed.
