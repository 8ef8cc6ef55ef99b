(** * Prop_Wire.v : property theorems (generated by tools/genprops.py from WireProofs.v).
    Every proof is the lemma of the same name in WireProofs.v. *)
From Coq Require Import String Ascii List NArith ZArith Bool.
From Verif Require Import Go Errors Message Spec_Wire CodecProofs.
Import ListNotations.
Local Open Scope string_scope.
From Verif Require Import WireProofs.

(** C01. A serialized message is received with the same token, names, no-op flag, and with
    the body or error that [delivered] describes.  [allow] is the receiver's native mode. *)
Theorem C01_wire_round_trip : forall ks typ allow m b,
  ~ sent_raw m -> m_fromExplicit m = "" -> good_token (m_wait m) ->
  safe_name (m_namespace m) -> safe_name (m_room m) -> safe_name (m_event m) ->
  (forall e, m_err m = Some e -> err_text e <> Ok "" \/ exists b, e = EReply b) ->
  serializeMessage m = Ok b ->
  let m' := DeserializeMessage ks typ b allow false in
  m_isInvalid m' = false /\
  m_wait m' = m_wait m /\
  m_namespace m' = m_namespace m /\
  m_room m' = m_room m /\
  m_event m' = m_event m /\
  m_isNoOp m' = m_isNoOp m /\
  m_setBinary m' = (match typ with BinaryMessage => true | TextMessage => false end) /\
  delivered ks (m_body m) (m_err m) (m_body m') (m_err m').
Proof. exact l_C01_wire_round_trip. Qed.
Print Assumptions C01_wire_round_trip.

(** A message with separators in every name, in the body, and a known error. *)
Example C01_example :
  let m := Message "$17" "a;b" "@%!room;" "ev;" "x;y;;" None false true false "" "" false "" false false false false false in
  ~ sent_raw m /\ m_fromExplicit m = "" /\ good_token (m_wait m) /\
  safe_name (m_namespace m) /\ safe_name (m_room m) /\ safe_name (m_event m) /\
  exists b, serializeMessage m = Ok b.
Proof.
  cbn. split; [intros [H _]; discriminate|]. split; [reflexivity|].
  split; [apply (genWait_good true 17)|].
  split; [apply unescape_escape_iff; reflexivity|].
  split; [apply unescape_escape_iff; reflexivity|].
  split; [apply unescape_escape_iff; reflexivity|].
  eexists; reflexivity.
Qed.

(** C02. A name survives escaping and unescaping exactly if it is safe. *)
Theorem C02_name_survives_iff : forall s, unescape (escape s) = s <-> safe_name s.
Proof. exact l_C02_name_survives_iff. Qed.
Print Assumptions C02_name_survives_iff.

(** C02, on the wire: whatever the rest of the message is, the namespace that is received equals the
    one that was sent exactly if it is safe; likewise room and event. *)
Theorem C02_wire_names_iff : forall ks typ allow m b,
  ~ sent_raw m -> m_fromExplicit m = "" -> good_token (m_wait m) -> serializeMessage m = Ok b ->
  let m' := DeserializeMessage ks typ b allow false in
  (m_namespace m' = m_namespace m <-> safe_name (m_namespace m)) /\
  (m_room m' = m_room m <-> safe_name (m_room m)) /\
  (m_event m' = m_event m <-> safe_name (m_event m)).
Proof. exact l_C02_wire_names_iff. Qed.
Print Assumptions C02_wire_names_iff.

(** C02. Avoiding the replacement text itself is not enough (the belief of message.go:254-256). *)
Theorem C02_replacement_text_not_enough_refuted :
  exists s, ~ contains "@%!semicolon@%!" s /\ unescape (escape s) <> s.
Proof. exact l_C02_replacement_text_not_enough_refuted. Qed.
Print Assumptions C02_replacement_text_not_enough_refuted.

(** C03. For arbitrary names and body the frame has exactly the seven fields of the message: no
    field content can move into another field. *)
Theorem C03_no_field_injection : forall ks typ allow m b,
  ~ sent_raw m -> m_fromExplicit m = "" -> good_token (m_wait m) -> serializeMessage m = Ok b ->
  let m' := DeserializeMessage ks typ b allow false in
  m_isInvalid m' = false /\
  m_wait m' = m_wait m /\ m_isNoOp m' = m_isNoOp m /\
  m_namespace m' = unescape (escape (m_namespace m)) /\
  m_room m' = unescape (escape (m_room m)) /\
  m_event m' = unescape (escape (m_event m)) /\
  (m_err m = None -> m_body m' = m_body m /\ m_err m' = None) /\
  (exists x rest, is_frame b (m_wait m) (escape (m_namespace m)) (escape (m_room m)) (escape (m_event m))
                    x (if m_isNoOp m then "1" else "0") rest).
Proof. exact l_C03_no_field_injection. Qed.
Print Assumptions C03_no_field_injection.

Example C03_example :
  let m := Message "5" "ns;;1;1;" "@%!semicolon@%!" ";" "b;o" None false false false "" "" false "" false false false false false in
  ~ sent_raw m /\ m_fromExplicit m = "" /\ good_token (m_wait m) /\ exists b, serializeMessage m = Ok b.
Proof.
  cbn. split; [intros [H _]; discriminate|]. split; [reflexivity|].
  split; [apply (genWait_good false 5)|eexists; reflexivity].
Qed.

(** C04. A Reply arrives as a plain body without error. *)
Theorem C04_reply : forall ks typ allow m rb b,
  ~ sent_raw m -> m_fromExplicit m = "" -> good_token (m_wait m) ->
  m_err m = Some (EReply rb) -> serializeMessage m = Ok b ->
  let m' := DeserializeMessage ks typ b allow false in
  m_err m' = None /\ m_body m' = rb.
Proof. exact l_C04_reply. Qed.
Print Assumptions C04_reply.

(** C04. Any other error arrives as an error resolved from its text and the body is dropped. *)
Theorem C04_error : forall ks typ allow m e t b,
  ~ sent_raw m -> m_fromExplicit m = "" -> good_token (m_wait m) ->
  m_err m = Some e -> (forall rb, e <> EReply rb) -> err_text e = Ok t -> t <> "" ->
  serializeMessage m = Ok b ->
  let m' := DeserializeMessage ks typ b allow false in
  (exists e', m_err m' = Some e' /\ resolves ks t e') /\ m_body m' = "".
Proof. exact l_C04_error. Qed.
Print Assumptions C04_error.

(** C04. The resolved value is unique. *)
Theorem C04_resolution_is_a_function : forall ks t e1 e2,
  resolves ks t e1 -> resolves ks t e2 -> e1 = e2.
Proof. exact l_C04_resolution_is_a_function. Qed.
Print Assumptions C04_resolution_is_a_function.

(** C04. A registered error whose text is not accepted by an earlier one comes back as the
    identical value. *)
Theorem C04_registered_error_identity : forall ks k t,
  err_text (k_err k) = Ok t ->
  (forall k', In k' ks -> known_matches t k' = false) ->
  resolves (RegisterKnownError k ks) t (k_err k).
Proof. exact l_C04_registered_error_identity. Qed.
Print Assumptions C04_registered_error_identity.

(** C04. Registering never drops or reorders an already registered error. *)
Theorem C04_registration_appends : forall k ks, exists l, RegisterKnownError k ks = (ks ++ l)%list /\ List.length l <= 1.
Proof. exact l_C04_registration_appends. Qed.
Print Assumptions C04_registration_appends.

(** C04. An error without text is received as success with an empty body. *)
Theorem C04_empty_error_text_is_lost : forall ks typ allow m e b,
  ~ sent_raw m -> m_fromExplicit m = "" -> good_token (m_wait m) ->
  m_err m = Some e -> (forall rb, e <> EReply rb) -> err_text e = Ok "" ->
  serializeMessage m = Ok b ->
  let m' := DeserializeMessage ks typ b allow false in
  m_err m' = None /\ m_body m' = "".
Proof. exact l_C04_empty_error_text_is_lost. Qed.
Print Assumptions C04_empty_error_text_is_lost.

Example C04_example :
  let m e := Message "$9" "ns" "" "ev" "dropped" (Some e) true false false "" "" false "" false false false false false in
  (forall e, ~ sent_raw (m e)) /\
  m_err (DeserializeMessage knownErrors0 TextMessage ("$9;ns;;ev;1;0;bad room") false false) = Some EBadRoom /\
  serializeMessage (m EBadRoom) = Ok "$9;ns;;ev;1;0;bad room" /\
  serializeMessage (m (EReply "pong")) = Ok "$9;ns;;ev;0;0;pong" /\
  (exists b, serializeMessage (m (EUser 3 "")) = Ok b) /\
  RegisterKnownError (Known (EUser 1 "mine") None) knownErrors0 <> knownErrors0.
Proof.
  cbn. split; [intros e [H _]; discriminate|]. repeat split; try reflexivity.
  - eexists; reflexivity.
  - discriminate.
Qed.

(** C05. A payload is rejected exactly if it is empty or has too few separators for a receiver
    that takes no native messages. *)
Theorem C05_invalid_iff : forall ks typ b allow only,
  m_isInvalid (DeserializeMessage ks typ b allow only) = true <->
  b = "" \/ (only = false /\ allow = false /\ count_char ";" b < 6).
Proof. exact l_C05_invalid_iff. Qed.
Print Assumptions C05_invalid_iff.

(** C05. Every accepted non native payload is the concatenation of its seven fields, and the
    decoded message consists of these fields; nothing is lost or added. *)
Theorem C05_fields : forall ks typ b allow,
  6 <= count_char ";" b ->
  exists w n r e x y rest,
    is_frame b w n r e x y rest /\
    let m := DeserializeMessage ks typ b allow false in
    m_namespace m = unescape n /\ m_room m = unescape r /\ m_event m = unescape e /\
    (m_isNoOp m = true <-> y = "1") /\
    ((exists e', x = "1" /\ rest <> "" /\ m_err m = Some e' /\ resolves ks rest e' /\ m_body m = "") \/
     ((x <> "1" \/ rest = "") /\ m_err m = None /\ m_body m = rest)).
Proof. exact l_C05_fields. Qed.
Print Assumptions C05_fields.

Example C05_example : 6 <= count_char ";" ";;;;;;;" /\
  m_isInvalid (DeserializeMessage knownErrors0 TextMessage "a;b" false false) = true /\
  m_isInvalid (DeserializeMessage knownErrors0 TextMessage "a;b" true false) = false.
Proof. cbn. split; [repeat constructor|split; reflexivity]. Qed.

(** C06. When a raw native body arrives at OnNativeMessage unchanged. *)
Theorem C06_native_round_trip_iff : forall ks typ m allow only,
  sent_raw m -> (only = true -> allow = true) ->
  exists b, serializeMessage m = Ok b /\
  let m' := DeserializeMessage ks typ b allow only in
  (m_isInvalid m' = false /\ m_isNative m' = true /\ m_event m' = "_OnNativeMessage" /\ m_body m' = m_body m
   <-> m_body m <> "" /\ (only = true \/ (allow = true /\ count_char ";" (m_body m) < 6))).
Proof. exact l_C06_native_round_trip_iff. Qed.
Print Assumptions C06_native_round_trip_iff.

Example C06_example : sent_raw (Message "" "" "" "" "a;b;c" None false false false "" "" false "" false false true false false).
Proof. split; reflexivity. Qed.

(** C07. Serialize panics exactly in these two situations. *)
Theorem C07_serialize_panics_iff : forall m,
  (exists w, serializeMessage m = Panic w) <->
  ~ sent_raw m /\
  ((m_fromExplicit m <> "" /\ m_wait m <> "") \/
   (exists e, m_err m = Some e /\ nil_close_error e)).
Proof. exact l_C07_serialize_panics_iff. Qed.
Print Assumptions C07_serialize_panics_iff.

(** C08. Tokens of the two sides never coincide. *)
Theorem C08_sides_disjoint : forall t1 t2, genWait true t1 <> genWait false t2.
Proof. exact l_C08_sides_disjoint. Qed.
Print Assumptions C08_sides_disjoint.

(** C08. Tokens of one side determine the clock reading: they coincide exactly if the clock readings do. *)
Theorem C08_injective : forall client t1 t2, genWait client t1 = genWait client t2 <-> t1 = t2.
Proof. exact l_C08_injective. Qed.
Print Assumptions C08_injective.

(** C08. Every generated token is received unchanged, in any message. *)
Theorem C08_survives_wire : forall ks typ allow client t m b,
  m_wait m = genWait client t -> m_fromExplicit m = "" -> serializeMessage m = Ok b ->
  m_wait (DeserializeMessage ks typ b allow false) = genWait client t /\
  m_fromStackExchange (DeserializeMessage ks typ b allow false) = false /\
  m_fromExplicit (DeserializeMessage ks typ b allow false) = "".
Proof. exact l_C08_survives_wire. Qed.
Print Assumptions C08_survives_wire.

(** C08. A server never treats a client's request token as a reply token; both sides treat their own
    tokens as reply tokens. *)
Theorem C08_recognition : forall t m,
  (m_wait m = genWait true t -> IsWait false m = false /\ IsWait true m = true) /\
  (m_wait m = genWait false t -> IsWait false m = true).
Proof. exact l_C08_recognition. Qed.
Print Assumptions C08_recognition.

Example C08_example : genWait true 1700000000000000000%Z = "$1700000000000000000".
Proof. reflexivity. Qed.

(** C09 is violated: no token made for a scale-out Ask is recognised as such by the server that
    receives the reply, whatever the message. *)
Theorem C09_token_never_recognised_refuted : forall ks typ allow t m b,
  m_wait m = genWaitStackExchange (genWait false t) -> ~ sent_raw m -> m_fromExplicit m = "" ->
  serializeMessage m = Ok b ->
  m_fromStackExchange (DeserializeMessage ks typ b allow false) = false.
Proof. exact l_C09_token_never_recognised_refuted. Qed.
Print Assumptions C09_token_never_recognised_refuted.

Example C09_example :
  let m := Message (genWaitStackExchange (genWait false 1700000000000000000)) "ns" "" "ev" "b" None false false false "" "" false "c1" false false false false false in
  ~ sent_raw m /\ m_fromExplicit m = "" /\ serializeMessage m = Ok "R700000000000000000;ns;;ev;0;0;b".
Proof. cbn. split; [intros [H _]; discriminate|]. split; reflexivity. Qed.

(** A token with the mark inserted (instead of added) would be recognised. *)
Example C09_what_would_work :
  m_fromStackExchange (DeserializeMessage knownErrors0 TextMessage "1!700000000000000000;ns;;ev;0;0;b" false false) = true /\
  m_wait (DeserializeMessage knownErrors0 TextMessage "1!700000000000000000;ns;;ev;0;0;b" false false) = "1700000000000000000".
Proof. split; reflexivity. Qed.

(** C10. An empty reply decodes to success with exactly its token. *)
Theorem C10_empty_reply : forall ks typ allow w, good_token w ->
  let m := DeserializeMessage ks typ (genEmptyReplyToWait w) allow false in
  m_wait m = w /\ m_err m = None /\ m_isInvalid m = false /\ m_isNoOp m = false /\
  m_namespace m = "" /\ m_room m = "" /\ m_event m = "" /\ m_body m = "" /\
  m_isNative m = false /\ m_fromStackExchange m = false /\ m_fromExplicit m = "".
Proof. exact l_C10_empty_reply. Qed.
Print Assumptions C10_empty_reply.

(** C10. In particular for every generated token. *)
Theorem C10_empty_reply_generated : forall ks typ allow client t,
  let m := DeserializeMessage ks typ (genEmptyReplyToWait (genWait client t)) allow false in
  m_wait m = genWait client t /\ m_err m = None /\ m_isInvalid m = false.
Proof. exact l_C10_empty_reply_generated. Qed.
Print Assumptions C10_empty_reply_generated.
