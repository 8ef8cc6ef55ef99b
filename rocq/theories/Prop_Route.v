(** * Prop_Route.v : property theorems (generated by tools/genprops.py from RouteProofs.v).
    Every proof is the lemma of the same name in RouteProofs.v. *)
From Coq Require Import String Ascii.
From stdpp Require Import gmap strings list.
From Verif Require Import Go Errors Message Spec_Wire Exchange Spec_Exchange.
From Verif Require Import RouteProofs.

(** C44 (redis).  After every history of connects, subscriptions and disconnects, on any number of
    servers, a published message reaches a connection exactly once if it is meant for it (its ID, or
    without receiver one of its namespaces) and not at all otherwise; what it gets is the serialized
    message.  Provided that the names have no pattern bytes and the ID is not used as a namespace. *)
Theorem C44_redis : forall prefix l c m ds,
  plain prefix -> redis_publish prefix (redis_run prefix l) m = Ok ds ->
  (forall p, In p ds -> serializeMessage m = Ok (snd p)) /\
  match subscribed c (rev l) with
  | None => copies c ds = 0
  | Some (id, nss) =>
      plain id -> (forall ns, ns ∈ nss -> plain ns) -> id_apart c id l m nss ->
      (meant_for m id nss -> copies c ds = 1) /\ (~ meant_for m id nss -> copies c ds = 0)
  end.
Proof. exact l_C44_redis. Qed.
Print Assumptions C44_redis.

(** C44 (nats).  The same, provided that no namespace is subscribed twice without an unsubscription
    in between. *)
Theorem C44_nats : forall prefix l c m ds,
  nats_plain prefix -> no_resubscribe c (rev l) -> nats_publish prefix (nats_run prefix l) m = Ok ds ->
  (forall p, In p ds -> serializeMessage m = Ok (snd p)) /\
  match subscribed c (rev l) with
  | None => copies c ds = 0
  | Some (id, nss) =>
      nats_plain id -> (forall ns, ns ∈ nss -> nats_plain ns) -> id_apart c id l m nss ->
      (meant_for m id nss -> copies c ds = 1) /\ (~ meant_for m id nss -> copies c ds = 0)
  end.
Proof. exact l_C44_nats. Qed.
Print Assumptions C44_nats.

(** Two servers' connections: 1 in "chat" and "game", 2 in "chat" again after leaving it, 3 gone. *)
Definition C44_history : list xevent :=
  [XEConnect 1 "a"; XEConnect 2 "b"; XESubscribe 1 "chat"; XESubscribe 2 "chat"; XEConnect 3 "c"; XESubscribe 3 "chat";
   XESubscribe 1 "game"; XEUnsubscribe 2 "chat"; XEDisconnect 3; XESubscribe 2 "chat"].
Example C44_example :
  let hi := set_event "hi" (set_namespace "chat" no_message) in
  subscribed 1 (rev C44_history) = Some ("a"%string, {["chat"; "game"]}%string) /\
  subscribed 3 (rev C44_history) = None /\
  plain "neffos" /\ plain "chat" /\ nats_plain "neffos" /\ id_apart 1 "a" C44_history hi {["chat"; "game"]}%string /\
  no_resubscribe 1 (rev C44_history) /\ no_resubscribe 2 (rev C44_history) /\
  redis_publish "neffos" (redis_run "neffos" C44_history) hi = Ok [(1, ";chat;;hi;0;0;"); (2, ";chat;;hi;0;0;")]%string /\
  nats_publish "neffos" (nats_run "neffos" C44_history) (set_to "b" hi) = Ok [(2, ";chat;;hi;0;0;")]%string /\
  meant_for hi "a" {["chat"; "game"]}%string /\ ~ meant_for (set_to "b" hi) "a" {["chat"; "game"]}%string.
Proof.
  cbv zeta. assert (Hs : subscribed 1 (rev C44_history) = Some ("a"%string, {["chat"; "game"]}%string)).
  { cbn. do 2 f_equal. apply (bool_decide_unpack _). vm_compute. exact I. }
  split; [exact Hs|]. split; [reflexivity|]. split; [repeat constructor; discriminate|]. split; [repeat constructor; discriminate|].
  split; [repeat constructor; discriminate|]. split.
  { split; [|done]. intros ns Hns. unfold C44_history in Hns. set_solver. }
  split. { cbn. repeat split; try (intros; done). all: intros _ id nss [= <- <-]; apply (bool_decide_unpack _); vm_compute; exact I. }
  split. { cbn. repeat split; try (intros; done). all: intros _ id nss [= <- <-]; apply (bool_decide_unpack _); vm_compute; exact I. }
  split; [vm_compute; reflexivity|]. split; [vm_compute; reflexivity|].
  split; [right; split; [done|set_solver]|]. intros [[E _]|[E _]]; discriminate.
Qed.

(** C44.  Publishing fails only on a message without receiver to a room of the empty namespace, and on
    a message that cannot be serialized; then it panics. *)
Theorem C44_publish_panics : forall prefix s s' m,
  let fails := (m_to m = "" /\ m_namespace m = "" /\ m_room m <> "")%string \/ exists w, serializeMessage m = Panic w in
  ((exists w, redis_publish prefix s m = Panic w) <-> fails) /\ ((exists w, nats_publish prefix s' m = Panic w) <-> fails).
Proof. exact l_C44_publish_panics. Qed.
Print Assumptions C44_publish_panics.

(** C44 (violated with pattern bytes).  A redis connection whose ID is "*" gets every published
    message, of every namespace and to every receiver. *)
Theorem C44_redis_pattern_id_refuted : forall prefix c m b, 
  plain prefix -> (m_to m <> "" \/ m_namespace m <> "" \/ m_room m = "")%string -> serializeMessage m = Ok b ->
  redis_publish prefix (redis_run prefix [XEConnect c "*"]) m = Ok [(c, b)].
Proof. exact l_C44_redis_pattern_id_refuted. Qed.
Print Assumptions C44_redis_pattern_id_refuted.

(** C44 (violated with pattern bytes).  A nats connection whose ID is ">" gets every published
    message, of every namespace and to every receiver. *)
Theorem C44_nats_pattern_id_refuted : forall prefix c m b,
  (m_to m <> "" \/ m_namespace m <> "" \/ m_room m = "")%string -> serializeMessage m = Ok b ->
  nats_publish prefix (nats_run prefix [XEConnect c ">"]) m = Ok [(c, b)].
Proof. exact l_C44_nats_pattern_id_refuted. Qed.
Print Assumptions C44_nats_pattern_id_refuted.

(** C44 (violated when an ID is the name of a namespace).  A message to the connection with the ID
    "chat" reaches every connection in the namespace "chat", whatever the IDs; and what is sent to the
    namespace reaches the connection with that ID.  Both exchanges. *)
Theorem C44_id_namespace_refuted : forall prefix c d ns id m b,
  plain prefix -> plain ns -> plain id -> nats_plain prefix -> nats_plain ns -> nats_plain id ->
  c <> d -> ns <> ""%string -> id <> ns -> serializeMessage m = Ok b ->
  let l := [XEConnect c id; XESubscribe c ns; XEConnect d ns] in
  m_to m = ns \/ (m_to m = ""%string /\ m_namespace m = ns) ->
  (exists ds, redis_publish prefix (redis_run prefix l) m = Ok ds /\ copies c ds = 1 /\ copies d ds = 1) /\
  (exists ds, nats_publish prefix (nats_run prefix l) m = Ok ds /\ copies c ds = 1 /\ copies d ds = 1).
Proof. exact l_C44_id_namespace_refuted. Qed.
Print Assumptions C44_id_namespace_refuted.

Example C44_id_namespace_example :
  let to_chat := set_to "chat" (set_event "secret" no_message) in
  redis_publish "neffos" (redis_run "neffos" [XEConnect 1 "a"; XESubscribe 1 "chat"; XEConnect 2 "chat"]) to_chat =
    Ok [(1, ";;;secret;0;0;"); (2, ";;;secret;0;0;")]%string.
Proof. vm_compute. reflexivity. Qed.

(** C44 (violated by a repeated subscription).  With nats, a connection that subscribes a namespace
    twice gets every message twice, and still gets it after the unsubscription. *)
Theorem C44_nats_twice_refuted : forall prefix c ns id m b,
  nats_plain prefix -> nats_plain ns -> nats_plain id -> id <> ns -> ns <> ""%string -> m_to m = ""%string -> m_namespace m = ns ->
  serializeMessage m = Ok b ->
  (exists ds, nats_publish prefix (nats_run prefix [XEConnect c id; XESubscribe c ns; XESubscribe c ns]) m = Ok ds /\ copies c ds = 2) /\
  (exists ds, nats_publish prefix (nats_run prefix [XEConnect c id; XESubscribe c ns; XESubscribe c ns; XEUnsubscribe c ns]) m = Ok ds /\
     copies c ds = 1).
Proof. exact l_C44_nats_twice_refuted. Qed.
Print Assumptions C44_nats_twice_refuted.

(** C44 (violated: exclusion of an ID).  A broadcast that excludes a connection by its ID is published
    exactly like one that excludes nobody. *)
Theorem C44_exclude_id_refuted : forall s m, m_fromExplicit m = ""%string ->
  serializeMessage (prepare (ExceptName s) m) = serializeMessage m /\
  m_to (prepare (ExceptName s) m) = m_to m /\ m_namespace (prepare (ExceptName s) m) = m_namespace m /\
  m_room (prepare (ExceptName s) m) = m_room m.
Proof. exact l_C44_exclude_id_refuted. Qed.
Print Assumptions C44_exclude_id_refuted.
