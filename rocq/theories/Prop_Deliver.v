(** * Prop_Deliver.v : property theorems (generated by tools/genprops.py from DeliverProofs.v).
    Every proof is the lemma of the same name in DeliverProofs.v. *)
From Coq Require Import ZArith.
From stdpp Require Import gmap strings list relations.
From RecordUpdate Require Import RecordUpdate.
From Verif Require Import Go Errors Message World Lang Code Sem Spec_Conn Spec_View Spec_Wire CodecProofs Examples Exchange.
From Verif Require Import DeliverProofs.

(** C44 (content).  Whatever is published arrives at the connection's Write with the same names, flags
    and body or error; the explicit sender survives, and instead of it the wait token otherwise.  The
    binary flag and an excluded ID do not survive. *)
Theorem C44_content : forall ks allow m b,
  ~ sent_raw m ->
  (m_fromExplicit m = "" /\ good_token (m_wait m)) \/ (no_semicolon (m_fromExplicit m) /\ exists t, m_fromExplicit m = "neffos(0x" ++ t)%string ->
  safe_name (m_namespace m) -> safe_name (m_room m) -> safe_name (m_event m) ->
  (forall e, m_err m = Some e -> err_text e <> Ok "" \/ exists b, e = EReply b) ->
  serializeMessage m = Ok b ->
  let m' := exchange_received ks allow false b in
  m_isInvalid m' = false /\ m_fromStackExchange m' = true /\
  m_fromExplicit m' = m_fromExplicit m /\ (m_wait m' = if is_empty (m_fromExplicit m) then m_wait m else "") /\
  m_namespace m' = m_namespace m /\ m_room m' = m_room m /\ m_event m' = m_event m /\ m_isNoOp m' = m_isNoOp m /\
  delivered ks (m_body m) (m_err m) (m_body m') (m_err m') /\
  m_setBinary m' = false /\ m_from m' = "".
Proof. exact l_C44_content. Qed.
Print Assumptions C44_content.

(** C44 (delivery).  A server connection that gets a published message from the exchange writes it exactly
    if the Write rules allow the published message: so the explicit sender is excluded, on whichever
    server it lives, and rooms and namespaces are respected. *)
Theorem C44_delivery : forall G c t w ks allow m b,
  quiet G w c -> g_client G c = false ->
  ~ sent_raw m ->
  (m_fromExplicit m = "" /\ good_token (m_wait m)) \/ (no_semicolon (m_fromExplicit m) /\ exists t, m_fromExplicit m = "neffos(0x" ++ t)%string ->
  safe_name (m_namespace m) -> safe_name (m_room m) -> safe_name (m_event m) ->
  (forall e, m_err m = Some e -> err_text e <> Ok "" \/ exists b, e = EReply b) ->
  (forall k, In k ks -> exists text, err_text (k_err k) = Ok text) ->
  serializeMessage m = Ok b ->
  exists w' ok out,
    exec t (Write G c (exchange_received ks allow false b)) w = XDone w' ok /\ only c w w' /\ quiet G w' c /\
    (ok = true <-> sendable (serverConnID G c) (cs_rooms (view w c)) m) /\
    cs_sent (view w' c) = cs_sent (view w c) ++ (if ok then [(TextMessage, out)] else []).
Proof. exact l_C44_delivery. Qed.
Print Assumptions C44_delivery.

(** C44 (exclusion).  A broadcast with a connection as the excepted sender, published through an exchange and received by
    the server of that connection, is not written to it. *)
Theorem C44_excluded : forall G c t w ks allow m b,
  quiet G w c -> g_client G c = false -> no_semicolon (serverConnID G c) ->
  ~ sent_raw m ->
  safe_name (m_namespace m) -> safe_name (m_room m) -> safe_name (m_event m) ->
  (forall e, m_err m = Some e -> err_text e <> Ok "" \/ exists b, e = EReply b) ->
  (forall k, In k ks -> exists text, err_text (k_err k) = Ok text) ->
  serializeMessage (prepare (ExceptConn (serverConnID G c)) m) = Ok b ->
  exists w', exec t (Write G c (exchange_received ks allow false b)) w = XDone w' false /\ only c w w' /\ quiet G w' c /\
    cs_sent (view w' c) = cs_sent (view w c).
Proof. exact l_C44_excluded. Qed.
Print Assumptions C44_excluded.

(** exM: connection 1 of a server is in room "open" of "chat"; a message of a connection of another server. *)
Example C44_delivery_example :
  let m := set_fromExplicit "neffos(0xother(9))" (set_event "hi" (set_room "open" (set_namespace "chat" no_message))) in
  quiet exG (s_w exM) 1 /\ g_client exG 1 = false /\ ~ sent_raw m /\ no_semicolon (m_fromExplicit m) /\
  (exists t, m_fromExplicit m = "neffos(0x" ++ t)%string /\ safe_name (m_event m) /\
  (exists b, serializeMessage m = Ok b) /\
  sendable (serverConnID exG 1) (cs_rooms (view (s_w exM) 1)) m /\
  ~ sendable (serverConnID exG 1) (cs_rooms (view (s_w exM) 1)) (set_fromExplicit (serverConnID exG 1) m) /\
  no_semicolon (serverConnID exG 1) /\ (exists b, serializeMessage (prepare (ExceptConn (serverConnID exG 1)) m) = Ok b).
Proof.
  cbv zeta. split; [apply ex_calm; auto|]. split; [reflexivity|]. split; [intros [E _]; discriminate|]. split; [reflexivity|].
  split; [exists "other(9))"%string; reflexivity|]. split; [apply unescape_escape_iff; reflexivity|]. split; [eexists; reflexivity|].
  assert (HM : cs_rooms (view (s_w exM) 1) = {["chat" := {["open"; "jail"]}]}) by (decide_eq).
  rewrite HM. unfold sendable. split.
  - split; [|right; cbn; discriminate]. right; right. exists {["open"; "jail"]}. split; [reflexivity|]. do 3 right. decide_eq.
  - split; [|split; [reflexivity|eexists; reflexivity]]. intros [_ [E|E]]; [discriminate|]. by apply E.
Qed.
