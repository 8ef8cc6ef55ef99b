(** * DeliverProofs.v : what a connection does with a message from another server. *)
From Coq Require Import ZArith Ascii.
From stdpp Require Import gmap strings list relations.
From RecordUpdate Require Import RecordUpdate.
From Verif Require Import Go Errors Message World Lang Code Sem ExecProofs Spec_Conn Spec_View Spec_Wire CodecProofs SeqProofs ConnProofs Examples Exchange.

(*@file Prop_Deliver.v
From Coq Require Import ZArith.
From stdpp Require Import gmap strings list relations.
From RecordUpdate Require Import RecordUpdate.
From Verif Require Import Go Errors Message World Lang Code Sem Spec_Conn Spec_View Spec_Wire CodecProofs Examples Exchange. @*)

Lemma deserialize_server_frame ks typ w n r e x y p allow :
  (exists t, w = ("neffos(0x" ++ t)%string) -> no_semicolon w -> no_semicolon n -> no_semicolon r -> no_semicolon e ->
  no_semicolon x -> no_semicolon y ->
  DeserializeMessage ks typ (frame w n r e x y p) allow false =
  set_fromExplicit w (DeserializeMessage ks typ (frame "" n r e x y p) allow false).
Proof.
  intros Hw Hs Hn Hr He Hx Hy. unfold DeserializeMessage. rewrite !deserialize_frame by done.
  cbn [i_wait i_namespace i_room i_event i_body i_isNoOp i_isInvalid i_err].
  assert (Hsv : isServerConnID w = true) by by apply has_prefix_iff. rewrite Hsv. done.
Qed.

(*@prop C44 (content).  Whatever is published arrives at the connection's Write with the same names, flags
    and body or error; the explicit sender survives, and instead of it the wait token otherwise.  The
    binary flag and an excluded ID do not survive. @*)
Lemma l_C44_content : forall ks allow m b,
  ~ sent_raw m ->
  (m_fromExplicit m = "" /\ good_token (m_wait m)) \/ (no_semicolon (m_fromExplicit m) /\ exists t, m_fromExplicit m = "neffos(0x" ++ t)%string ->
  safe_name (m_namespace m) -> safe_name (m_room m) -> safe_name (m_event m) ->
  (forall e, m_err m = Some e -> err_text e <> Ok "" \/ exists b, e = EReply b) ->
  serializeMessage m = Ok b ->
  let m' := exchange_received ks allow false b in
  m_isInvalid m' = false /\ m_fromStackExchange m' = true /\
  m_fromExplicit m' = m_fromExplicit m /\ (m_wait m' = if is_empty (m_fromExplicit m) then m_wait m else "") /\
  m_namespace m' = m_namespace m /\ m_room m' = m_room m /\ m_event m' = m_event m /\ m_isNoOp m' = m_isNoOp m /\
  delivered ks (m_body m) (m_err m) (m_body m') (m_err m') /\
  m_setBinary m' = false /\ m_from m' = "".
Proof.
  intros ks allow m b Hraw Ho Hn Hr He Herr Hs m'.
  apply serializeMessage_frame in Hs as (w & x & p & -> & Hweq & Hc); [|exact Hraw].
  assert (Hx : x = "0" \/ x = "1").
  { destruct Hc as [(_ & -> & _)|[(rb & _ & -> & _)|(ge & t & _ & _ & _ & -> & _)]]; auto. }
  assert (Hxs : no_semicolon x) by (destruct Hx as [-> | ->]; reflexivity).
  assert (E : m' = set_fromStackExchange true (set_fromExplicit (m_fromExplicit m) (DeserializeMessage ks TextMessage
     (frame (if is_empty (m_fromExplicit m) then m_wait m else "") (escape (m_namespace m)) (escape (m_room m)) (escape (m_event m)) x
        (if m_isNoOp m then "1" else "0") p) allow false))).
  { unfold m', exchange_received. f_equal. destruct Ho as [[Hf Hg]|[Hsc Hsv]].
    - rewrite Hf in Hweq |- *. change (is_empty "") with true in Hweq |- *. cbv iota in Hweq |- *. subst w.
      rewrite deserialize_message_frame by auto using escape_no_semicolon, bool01_no_semicolon. done.
    - assert (Hne : is_empty (m_fromExplicit m) = false) by (destruct Hsv as [t ->]; done).
      rewrite Hne in Hweq |- *. subst w. apply deserialize_server_frame; auto using escape_no_semicolon, bool01_no_semicolon. }
  rewrite E. rewrite deserialize_message_frame; auto using escape_no_semicolon, bool01_no_semicolon.
  2:{ destruct Ho as [[-> Hg]|[Hsc [t Ht]]]; [done|]. rewrite Ht. cbn. split; [done|].
      intros [[r' H']|(c' & d' & r' & H')]; discriminate. }
  cbn. rewrite !unescape_escape by assumption. repeat (split; [reflexivity|]).
  split; [by destruct (m_isNoOp m)|]. split; [|done].
  destruct Hc as [(-> & -> & ->)|[(rb & -> & -> & ->)|(ge & t & Hge & Hnr & Ht & -> & ->)]].
  - cbn. destruct (is_empty (m_body m)); constructor.
  - cbn. destruct (is_empty rb); constructor.
  - rewrite Hge. cbn.
    destruct (Herr ge Hge) as [Hne|[b' Hb']]; [|exfalso; eapply Hnr; eauto].
    destruct t as [|d t]; [congruence|]. cbn.
    eapply del_error; eauto using resolveError_resolves; discriminate.
Qed.

(*@prop C44 (delivery).  A server connection that gets a published message from the exchange writes it exactly
    if the Write rules allow the published message: so the explicit sender is excluded, on whichever
    server it lives, and rooms and namespaces are respected. @*)
Lemma l_C44_delivery : forall G c t w ks allow m b,
  quiet G w c -> g_client G c = false ->
  ~ sent_raw m ->
  (m_fromExplicit m = "" /\ good_token (m_wait m)) \/ (no_semicolon (m_fromExplicit m) /\ exists t, m_fromExplicit m = "neffos(0x" ++ t)%string ->
  safe_name (m_namespace m) -> safe_name (m_room m) -> safe_name (m_event m) ->
  (forall e, m_err m = Some e -> err_text e <> Ok "" \/ exists b, e = EReply b) ->
  (forall k, In k ks -> exists text, err_text (k_err k) = Ok text) ->
  serializeMessage m = Ok b ->
  exists w' ok out,
    exec t (Write G c (exchange_received ks allow false b)) w = XDone w' ok /\ only c w w' /\ quiet G w' c /\
    (ok = true <-> sendable (serverConnID G c) (cs_rooms (view w c)) m) /\
    cs_sent (view w' c) = cs_sent (view w c) ++ (if ok then [(TextMessage, out)] else []).
Proof.
  intros G c t w ks allow m b Q Hcl Hraw Ho Hn Hr He Herr Hks Hs.
  destruct (l_C44_content ks allow m b Hraw Ho Hn Hr He Herr Hs) as (_ & _ & Hfe & _ & Hns & Hro & Hev & _ & Hd & Hb & _).
  set (m' := exchange_received ks allow false b) in *.
  assert (Hp : match m_err m' with None => True | Some e => exists text, err_text e = Ok text end).
  { destruct (m_err m') as [e|] eqn:E; [|done]. inversion Hd; subst.
    match goal with HR : resolves _ _ _ |- _ => inversion HR; subst end; [|eexists; reflexivity].
    apply Hks. apply in_or_app. right. by left. }
  destruct (l_C18_write G c t w m' Q Hp) as (w' & ok & out & _ & E & O & Q' & Hok & Hv).
  exists w', ok, out. split; [exact E|]. split; [exact O|]. split; [exact Q'|]. split.
  - rewrite Hok, Hcl. unfold sendable. rewrite Hfe, Hns, Hro, Hev. done.
  - rewrite Hv, Hb. destruct ok; [done|]. by rewrite app_nil_r.
Qed.

(*@prop C44 (exclusion).  A broadcast with a connection as the excepted sender, published through an exchange and received by
    the server of that connection, is not written to it. @*)
Lemma l_C44_excluded : forall G c t w ks allow m b,
  quiet G w c -> g_client G c = false -> no_semicolon (serverConnID G c) ->
  ~ sent_raw m ->
  safe_name (m_namespace m) -> safe_name (m_room m) -> safe_name (m_event m) ->
  (forall e, m_err m = Some e -> err_text e <> Ok "" \/ exists b, e = EReply b) ->
  (forall k, In k ks -> exists text, err_text (k_err k) = Ok text) ->
  serializeMessage (prepare (ExceptConn (serverConnID G c)) m) = Ok b ->
  exists w', exec t (Write G c (exchange_received ks allow false b)) w = XDone w' false /\ only c w w' /\ quiet G w' c /\
    cs_sent (view w' c) = cs_sent (view w c).
Proof.
  intros G c t w ks allow m b Q Hcl Hsc Hraw Hn Hr He Herr Hks Hs.
  assert (Hsh : exists t, serverConnID G c = ("neffos(0x" ++ t)%string) by (unfold serverConnID, IsClient; rewrite Hcl; eauto).
  destruct (l_C44_delivery G c t w ks allow (set_fromExplicit (serverConnID G c) m) b) as (w' & ok & out & E & O & Q' & Hok & Hv); auto.
  destruct ok; [|exists w'; split; [exact E|]; split; [exact O|]; split; [exact Q'|]; rewrite Hv; apply app_nil_r].
  exfalso. destruct (proj1 Hok eq_refl) as [_ [H|H]]; cbn in H; [|done]. destruct Hsh as [x Hx]. rewrite Hx in H. discriminate.
Qed.
(*@ex
(** exM: connection 1 of a server is in room "open" of "chat"; a message of a connection of another server. *)
Example C44_delivery_example :
  let m := set_fromExplicit "neffos(0xother(9))" (set_event "hi" (set_room "open" (set_namespace "chat" no_message))) in
  quiet exG (s_w exM) 1 /\ g_client exG 1 = false /\ ~ sent_raw m /\ no_semicolon (m_fromExplicit m) /\
  (exists t, m_fromExplicit m = "neffos(0x" ++ t)%string /\ safe_name (m_event m) /\
  (exists b, serializeMessage m = Ok b) /\
  sendable (serverConnID exG 1) (cs_rooms (view (s_w exM) 1)) m /\
  ~ sendable (serverConnID exG 1) (cs_rooms (view (s_w exM) 1)) (set_fromExplicit (serverConnID exG 1) m) /\
  no_semicolon (serverConnID exG 1) /\ (exists b, serializeMessage (prepare (ExceptConn (serverConnID exG 1)) m) = Ok b).
Proof.
  cbv zeta. split; [apply ex_calm; auto|]. split; [reflexivity|]. split; [intros [E _]; discriminate|]. split; [reflexivity|].
  split; [exists "other(9))"%string; reflexivity|]. split; [apply unescape_escape_iff; reflexivity|]. split; [eexists; reflexivity|].
  assert (HM : cs_rooms (view (s_w exM) 1) = {["chat" := {["open"; "jail"]}]}) by (decide_eq).
  rewrite HM. unfold sendable. split.
  - split; [|right; cbn; discriminate]. right; right. exists {["open"; "jail"]}. split; [reflexivity|]. do 3 right. decide_eq.
  - split; [|split; [reflexivity|eexists; reflexivity]]. intros [_ [E|E]]; [discriminate|]. by apply E.
Qed.
@*)
