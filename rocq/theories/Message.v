(** * Message.v : the wire format (message.go). *)
From Coq Require Import String Ascii List NArith ZArith Bool Lia.
From Verif Require Import Go Errors.
Import ListNotations.
Local Open Scope string_scope.

(** conn.go:34-37 MessageType *)
Inductive mtype : Type := TextMessage | BinaryMessage.

(** message.go:31-101 Message.  [isError] is derived from [Err] by the only
    code that sets it and is never read, so it is kept only for the record. *)
Record message : Type := Message {
  m_wait : string;
  m_namespace : string;
  m_room : string;
  m_event : string;
  m_body : string;
  m_err : option gerr;
  m_isError : bool;
  m_isNoOp : bool;
  m_isInvalid : bool;
  m_from : string;
  m_fromExplicit : string;
  m_fromStackExchange : bool;
  m_to : string;
  m_isForced : bool;
  m_isLocal : bool;
  m_isNative : bool;
  m_locked : bool;
  m_setBinary : bool
}.

(** The zero value [Message{}]. *)
Definition no_message : message :=
  Message "" "" "" "" "" None false false false "" "" false "" false false false false false.

(** Field updates (Go assignments to a field of a copy). *)
Definition set_wait (v : string) (m : message) : message :=
  Message v (m_namespace m) (m_room m) (m_event m) (m_body m) (m_err m) (m_isError m) (m_isNoOp m) (m_isInvalid m) (m_from m) (m_fromExplicit m) (m_fromStackExchange m) (m_to m) (m_isForced m) (m_isLocal m) (m_isNative m) (m_locked m) (m_setBinary m).
Definition set_namespace (v : string) (m : message) : message :=
  Message (m_wait m) v (m_room m) (m_event m) (m_body m) (m_err m) (m_isError m) (m_isNoOp m) (m_isInvalid m) (m_from m) (m_fromExplicit m) (m_fromStackExchange m) (m_to m) (m_isForced m) (m_isLocal m) (m_isNative m) (m_locked m) (m_setBinary m).
Definition set_room (v : string) (m : message) : message :=
  Message (m_wait m) (m_namespace m) v (m_event m) (m_body m) (m_err m) (m_isError m) (m_isNoOp m) (m_isInvalid m) (m_from m) (m_fromExplicit m) (m_fromStackExchange m) (m_to m) (m_isForced m) (m_isLocal m) (m_isNative m) (m_locked m) (m_setBinary m).
Definition set_event (v : string) (m : message) : message :=
  Message (m_wait m) (m_namespace m) (m_room m) v (m_body m) (m_err m) (m_isError m) (m_isNoOp m) (m_isInvalid m) (m_from m) (m_fromExplicit m) (m_fromStackExchange m) (m_to m) (m_isForced m) (m_isLocal m) (m_isNative m) (m_locked m) (m_setBinary m).
Definition set_body (v : string) (m : message) : message :=
  Message (m_wait m) (m_namespace m) (m_room m) (m_event m) v (m_err m) (m_isError m) (m_isNoOp m) (m_isInvalid m) (m_from m) (m_fromExplicit m) (m_fromStackExchange m) (m_to m) (m_isForced m) (m_isLocal m) (m_isNative m) (m_locked m) (m_setBinary m).
Definition set_err (v : option gerr) (m : message) : message :=
  Message (m_wait m) (m_namespace m) (m_room m) (m_event m) (m_body m) v (m_isError m) (m_isNoOp m) (m_isInvalid m) (m_from m) (m_fromExplicit m) (m_fromStackExchange m) (m_to m) (m_isForced m) (m_isLocal m) (m_isNative m) (m_locked m) (m_setBinary m).
Definition set_isError (v : bool) (m : message) : message :=
  Message (m_wait m) (m_namespace m) (m_room m) (m_event m) (m_body m) (m_err m) v (m_isNoOp m) (m_isInvalid m) (m_from m) (m_fromExplicit m) (m_fromStackExchange m) (m_to m) (m_isForced m) (m_isLocal m) (m_isNative m) (m_locked m) (m_setBinary m).
Definition set_from (v : string) (m : message) : message :=
  Message (m_wait m) (m_namespace m) (m_room m) (m_event m) (m_body m) (m_err m) (m_isError m) (m_isNoOp m) (m_isInvalid m) v (m_fromExplicit m) (m_fromStackExchange m) (m_to m) (m_isForced m) (m_isLocal m) (m_isNative m) (m_locked m) (m_setBinary m).
Definition set_fromExplicit (v : string) (m : message) : message :=
  Message (m_wait m) (m_namespace m) (m_room m) (m_event m) (m_body m) (m_err m) (m_isError m) (m_isNoOp m) (m_isInvalid m) (m_from m) v (m_fromStackExchange m) (m_to m) (m_isForced m) (m_isLocal m) (m_isNative m) (m_locked m) (m_setBinary m).
Definition set_fromStackExchange (v : bool) (m : message) : message :=
  Message (m_wait m) (m_namespace m) (m_room m) (m_event m) (m_body m) (m_err m) (m_isError m) (m_isNoOp m) (m_isInvalid m) (m_from m) (m_fromExplicit m) v (m_to m) (m_isForced m) (m_isLocal m) (m_isNative m) (m_locked m) (m_setBinary m).
Definition set_to (v : string) (m : message) : message :=
  Message (m_wait m) (m_namespace m) (m_room m) (m_event m) (m_body m) (m_err m) (m_isError m) (m_isNoOp m) (m_isInvalid m) (m_from m) (m_fromExplicit m) (m_fromStackExchange m) v (m_isForced m) (m_isLocal m) (m_isNative m) (m_locked m) (m_setBinary m).
Definition set_isForced (v : bool) (m : message) : message :=
  Message (m_wait m) (m_namespace m) (m_room m) (m_event m) (m_body m) (m_err m) (m_isError m) (m_isNoOp m) (m_isInvalid m) (m_from m) (m_fromExplicit m) (m_fromStackExchange m) (m_to m) v (m_isLocal m) (m_isNative m) (m_locked m) (m_setBinary m).
Definition set_isLocal (v : bool) (m : message) : message :=
  Message (m_wait m) (m_namespace m) (m_room m) (m_event m) (m_body m) (m_err m) (m_isError m) (m_isNoOp m) (m_isInvalid m) (m_from m) (m_fromExplicit m) (m_fromStackExchange m) (m_to m) (m_isForced m) v (m_isNative m) (m_locked m) (m_setBinary m).
Definition set_isNative (v : bool) (m : message) : message :=
  Message (m_wait m) (m_namespace m) (m_room m) (m_event m) (m_body m) (m_err m) (m_isError m) (m_isNoOp m) (m_isInvalid m) (m_from m) (m_fromExplicit m) (m_fromStackExchange m) (m_to m) (m_isForced m) (m_isLocal m) v (m_locked m) (m_setBinary m).
Definition set_locked (v : bool) (m : message) : message :=
  Message (m_wait m) (m_namespace m) (m_room m) (m_event m) (m_body m) (m_err m) (m_isError m) (m_isNoOp m) (m_isInvalid m) (m_from m) (m_fromExplicit m) (m_fromStackExchange m) (m_to m) (m_isForced m) (m_isLocal m) (m_isNative m) v (m_setBinary m).
Definition set_setBinary (v : bool) (m : message) : message :=
  Message (m_wait m) (m_namespace m) (m_room m) (m_event m) (m_body m) (m_err m) (m_isError m) (m_isNoOp m) (m_isInvalid m) (m_from m) (m_fromExplicit m) (m_fromStackExchange m) (m_to m) (m_isForced m) (m_isLocal m) (m_isNative m) (m_locked m) v.

(** event.go:17-45 *)
Definition OnNamespaceConnect : string := "_OnNamespaceConnect".
Definition OnNamespaceConnected : string := "_OnNamespaceConnected".
Definition OnNamespaceDisconnect : string := "_OnNamespaceDisconnect".
Definition OnRoomJoin : string := "_OnRoomJoin".
Definition OnRoomJoined : string := "_OnRoomJoined".
Definition OnRoomLeave : string := "_OnRoomLeave".
Definition OnRoomLeft : string := "_OnRoomLeft".
Definition OnAnyEvent : string := "_OnAnyEvent".
Definition OnNativeMessage : string := "_OnNativeMessage".

(** message.go:103-117 *)
Definition isConnect (m : message) : bool := String.eqb (m_event m) OnNamespaceConnect.
Definition isDisconnect (m : message) : bool := String.eqb (m_event m) OnNamespaceDisconnect.
Definition isRoomJoin (m : message) : bool := String.eqb (m_event m) OnRoomJoin.
Definition isRoomLeft (m : message) : bool := String.eqb (m_event m) OnRoomLeft.

(** message.go:188-192 *)
Definition waitIsConfirmationPrefix : ascii := "#".
Definition waitComesFromClientPrefix : ascii := "$".
Definition waitComesFromStackExchange : ascii := "!".

(** message.go:195-210 IsWait *)
Definition IsWait (isClientConn : bool) (m : message) : bool :=
  match m_wait m with
  | EmptyString => false
  | String c _ =>
      if Ascii.eqb c waitIsConfirmationPrefix then true
      else if Ascii.eqb c waitComesFromClientPrefix then isClientConn
      else true
  end.

(** message.go:213-220 ClearWait: the new message and the result *)
Definition ClearWait (m : message) : message * bool :=
  if is_empty (m_fromExplicit m) && negb (is_empty (m_wait m))
  then (set_wait "" m, true) else (m, false).

(** message.go:222-231 genWait; [now] is time.Now().UnixNano() *)
Definition genWait (isClientConn : bool) (now : Z) : string :=
  let wait := format_int now in
  if isClientConn then string_of_byte waitComesFromClientPrefix ++ wait else wait.

(** message.go:237-246 genWaitStackExchange.  [wait[0]+'!'] is a byte sum. *)
Definition genWaitStackExchange (wait : string) : string :=
  match wait with
  | EmptyString => ""
  | String _ EmptyString => ""
  | String c rest => string_of_byte (byte_add c waitComesFromStackExchange) ++ rest
  end.

(** message.go:248-257 *)
Definition trueByte : string := "1".
Definition falseByte : string := "0".
Definition sep : ascii := ";".
Definition messageSeparator : string := ";".
Definition messageFieldSeparatorReplacement : string := "@%!semicolon@%!".

(** message.go:260-266 *)
Definition escape (s : string) : string :=
  if is_empty s then s else replace_all s messageSeparator messageFieldSeparatorReplacement.

(** message.go:269-275 *)
Definition unescape (s : string) : string :=
  if is_empty s then s else replace_all s messageFieldSeparatorReplacement messageSeparator.

(** message.go:295-335 serializeOutput *)
Definition serializeOutput (wait namespace room event body : string) (err : option gerr)
    (isNoOp : bool) : result string :=
  let out (body isErrorByte : string) : result string :=
    Ok (join messageSeparator
          [wait; namespace; room; event; isErrorByte;
           if isNoOp then trueByte else falseByte; body]) in
  match err with
  | None => out body falseByte
  | Some e =>
      match is_reply e with
      | Some b => out b falseByte
      | None => match err_text e with
                | Ok t => out t trueByte
                | Panic w => Panic w
                end
      end
  end.

(** message.go:277-293 serializeMessage (also message.go:120-122 Serialize) *)
Definition serializeMessage (m : message) : result string :=
  if m_isNative m && is_empty (m_wait m) then Ok (m_body m)
  else
    if negb (is_empty (m_fromExplicit m)) then
      if negb (is_empty (m_wait m))
      then Panic "msg.wait and msg.FromExplicit cannot work together"
      else serializeOutput (m_fromExplicit m) (escape (m_namespace m)) (escape (m_room m))
             (escape (m_event m)) (m_body m) (m_err m) (m_isNoOp m)
    else serializeOutput (m_wait m) (escape (m_namespace m)) (escape (m_room m))
             (escape (m_event m)) (m_body m) (m_err m) (m_isNoOp m).

(** server.go:268-270 *)
Definition isServerConnID (s : string) : bool := has_prefix s "neffos(0x".

(** message.go:380-398: an entry of the list of known errors.  [k_resolve] is
    the optional method [ResolveError] of the dynamic type of the error. *)
Record known : Type := Known {
  k_err : gerr;
  k_resolve : option (string -> bool)
}.

(** message.go:380 *)
Definition knownErrors0 : list known :=
  [Known EBadNamespace None; Known EBadRoom None; Known EWrite None; Known EInvalidPayload None].

(** message.go:390-398 RegisterKnownError *)
Definition RegisterKnownError (k : known) (ks : list known) : list known :=
  if existsb (fun k' => gerr_eqb (k_err k) (k_err k')) ks then ks else ks ++ [k].

(** One test of the loop body message.go:402-412.  The text of a registered
    CloseError without inner error panics in Go; such a registration is
    outside the model (it never matches here). *)
Definition known_matches (text : string) (k : known) : bool :=
  match k_resolve k with
  | Some f => f text
  | None => false
  end ||
  match err_text (k_err k) with
  | Ok t => String.eqb t text
  | Panic _ => false
  end.

(** message.go:400-416 resolveError *)
Fixpoint resolveError (ks : list known) (text : string) : gerr :=
  match ks with
  | [] => ENew text
  | k :: ks' => if known_matches text k then k_err k else resolveError ks' text
  end.

(** Results of deserializeInput. *)
Record input : Type := Input {
  i_wait : string; i_namespace : string; i_room : string; i_event : string;
  i_body : string; i_isNoOp : bool; i_isInvalid : bool; i_err : option gerr
}.

(** message.go:378 *)
Definition validMessageSepCount : nat := 7.

(** message.go:418-469 deserializeInput *)
Definition deserializeInput (ks : list known) (b : string)
    (allowNative onlyNative : bool) : input :=
  if is_empty b then Input "" "" "" "" "" false true None
  else if onlyNative then Input "" "" "" OnNativeMessage b false false None
  else
    match splitN validMessageSepCount sep b with
    | [wait; namespace; room; event; isErr; isNoOp; rest] =>
        let isError := String.eqb isErr trueByte in
        let noOp := String.eqb isNoOp trueByte in
        if is_empty rest then Input wait namespace room event "" noOp false None
        else if isError
             then Input wait namespace room event "" noOp false (Some (resolveError ks rest))
             else Input wait namespace room event rest noOp false None
    | _ =>
        if allowNative then Input "" "" "" OnNativeMessage b false false None
        else Input "" "" "" "" "" false true None
    end.

(** message.go:340-376 DeserializeMessage (conn.go:485-487 supplies the flags) *)
Definition DeserializeMessage (ks : list known) (typ : mtype) (b : string)
    (allowNative onlyNative : bool) : message :=
  let i := deserializeInput ks b allowNative onlyNative in
  let '(wait1, fromExplicit) :=
    if isServerConnID (i_wait i) then ("", i_wait i) else (i_wait i, "") in
  let fromStackExchange :=
    Nat.ltb 2 (String.length wait1) &&
    match second_byte wait1 with
    | Some c => Ascii.eqb c waitComesFromStackExchange
    | None => false
    end in
  let wait2 :=
    if fromStackExchange then
      match wait1 with
      | String c _ => string_of_byte c ++ drop 2 wait1
      | EmptyString => wait1
      end
    else wait1 in
  {| m_wait := wait2;
     m_namespace := unescape (i_namespace i);
     m_room := unescape (i_room i);
     m_event := unescape (i_event i);
     m_body := i_body i;
     m_err := i_err i;
     m_isError := match i_err i with Some _ => true | None => false end;
     m_isNoOp := i_isNoOp i;
     m_isInvalid := i_isInvalid i;
     m_from := "";
     m_fromExplicit := fromExplicit;
     m_fromStackExchange := fromStackExchange;
     m_to := "";
     m_isForced := false;
     m_isLocal := false;
     m_isNative := allowNative && String.eqb (i_event i) OnNativeMessage;
     m_locked := false;
     m_setBinary := match typ with BinaryMessage => true | TextMessage => false end |}.

(** message.go:471-473 genEmptyReplyToWait *)
Definition genEmptyReplyToWait (wait : string) : string :=
  wait ++ repeat_str messageSeparator (validMessageSepCount - 1).
