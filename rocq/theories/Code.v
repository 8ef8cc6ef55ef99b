(** * Code.v : the connection, namespace, room and server code, function by
    function, as programs of Lang.v. *)
From Coq Require Import ZArith Ascii.
From stdpp Require Import gmap strings list.
From RecordUpdate Require Import RecordUpdate.
From Verif Require Import Go Errors Message World Lang.
From Verif Require Store.
Local Open Scope prog_scope.

(** A MessageHandlerFunc (event.go:15).  A registered callback is never nil in
    the model. *)
Definition handler : Type := nsref -> message -> prog (option gerr).
(** conn_handler.go:32, 61 *)
Notation events := (gmap string handler).
Notation namespaces := (gmap string events).

(** The StackExchange of a server, seen from the server: what its methods
    return (stackexchange.go:15-42).  Every call is also logged. *)
Record exchange : Type := Exchange {
  x_onconnect : cid -> option gerr;
  x_publish : list message -> bool;
  x_ask : ctxref -> message -> string -> message * option gerr;
  x_notify : message -> string -> option gerr }.

(** What never changes while the process runs.  [g_client c] says whether
    connection [c] is made by Dial or by Upgrade; a process may hold both. *)
Record cfg : Type := Cfg {
  g_client : cid -> bool;
  g_namespaces : cid -> namespaces;       (* conn.go:75; the server's is server.go:71 *)
  g_connid : cid -> string;               (* the result of the IDGenerator, server.go:322-326 *)
  g_uuid : string;                        (* server.go:46 *)
  g_ptr : cid -> string;                  (* the address of a Conn printed with %p *)
  g_known : list known;                   (* message.go:380, fixed after start *)
  g_exch : option exchange;               (* server.go:50 *)
  g_sync : bool;                          (* server.go:61 SyncBroadcaster *)
  g_firealways : bool;                    (* server.go:68 FireDisconnectAlways *)
  g_onconnect : option (cid -> prog (option gerr));  (* server.go:100 *)
  g_ondisconnect : option (cid -> prog unit);        (* server.go:103 *)
  g_do : nat -> cid -> prog unit;         (* functions the application passes to Do *)
  g_user : nat -> prog unit }.            (* goroutines of the application *)

Section code.
Variable G : cfg.

(** conn.go:173-175 *)
Definition IsClient (c : cid) : bool := g_client G c.
(** server.go:163-165 *)
Definition usesStackExchange : bool := match g_exch G with Some _ => true | None => false end.
(** server.go:272-274 genServerConnID; a client-side connection has none *)
Definition serverConnID (c : cid) : string :=
  if IsClient c then "" else
  ("neffos(0x" ++ g_uuid G ++ "(" ++ g_connid G c ++ g_ptr G c ++ "))")%string.

(** conn.go:121-135: the two native message flags set by newConn *)
Definition allowNative (c : cid) : bool :=
  match g_namespaces G c !! "" with
  | Some ev => match ev !! OnNativeMessage with Some _ => true | None => false end
  | None => false
  end.
Definition onlyNative (c : cid) : bool :=
  allowNative c && (size (g_namespaces G c) =? 1) &&
  match g_namespaces G c !! "" with Some ev => size ev =? 1 | None => false end.

(** conn.go:105-138 newConn, and server.go:322-331: the fields Upgrade sets
    before any other goroutine sees the connection *)
Definition newConn (c : cid) : prog unit :=
  opr (ONewConn c (if IsClient c then "" else g_connid G c) (onlyNative c)).

(** conn_namespace.go:20: the events of a NSConn are those its connection
    declares for its name *)
Definition ns_events (n : nsref) : events :=
  default ∅ (g_namespaces G (n_conn n) !! n_name n).

(** conn_handler.go:39-49 fireEvent *)
Definition fireEvent (n : nsref) (m : message) : prog (option gerr) :=
  match ns_events n !! m_event m with
  | Some h => opr (OLog (LFire n (m_event m) m)) ;;; h n m
  | None =>
      match ns_events n !! OnAnyEvent with
      | Some h => opr (OLog (LFire n OnAnyEvent m)) ;;; h n m
      | None => Ret None
      end
  end.

(** waiter_once.go:42-58 wait *)
Definition wait (c : cid) : prog (option gerr) :=
  let! ready := opr (OWReady c) in
  if ready then opr (OWErr c)
  else
    let! locked := opr (OWCasLock c) in
    (if locked then opr (OWRecv c) else Ret tt) ;;;
    opr (OWErr c).

(** waiter_once.go:60-71 unwait *)
Definition unwait (c : cid) (e : option gerr) : prog unit :=
  let! ready := opr (OWReady c) in
  if ready then Ret tt
  else
    opr (OWSetErr c e) ;;;
    opr (OWSetReady c) ;;;
    let! l := opr (OWCasUnlock c) in
    if l then opr (OWClose c) else Ret tt.

(** process.go:21-37 processes.get *)
Definition proc_get (c : cid) (name : string) : prog pid :=
  let! e := opr (OProcGet c name) in
  match e with
  | Some p => Ret p
  | None => opr (OProcNew c name)
  end.
(** process.go:64-70 Done *)
Definition proc_Done (p : pid) : prog unit :=
  let! first := opr (OProcDoneCas p) in
  if first then opr (OProcDone p) else Ret tt.
(** process.go:73-78 Wait *)
Definition proc_Wait (p : pid) : prog unit :=
  let! d := opr (OProcIsDone p) in
  if d then Ret tt else
  let! asleep := opr (OProcWait p) in
  match asleep with
  | None => Ret tt
  | Some g => opr (OProcWoken p g)
  end.
(** process.go:81-83 Start *)
Definition proc_Start (p : pid) : prog unit := opr (OProcAdd p).

(** conn.go:575-581 Namespace *)
Definition Namespace (c : cid) (name : string) : prog (option nsref) :=
  opr (ONsRLock c) ;;;
  let! n := opr (OGetNs c name) in
  opr (ONsRUnlock c) ;;;
  Ret n.

(** conn_namespace.go:146-162 forceLeaveAll *)
Definition forceLeaveAll (n : nsref) (isLocal : bool) : prog unit :=
  opr (ORoomLock n) ;;;
  let! rooms := opr (ORoomRange n) in
  let leaveMsg := set_isLocal isLocal (set_isForced true (set_namespace (n_name n) no_message)) in
  for_all rooms (fun room =>
    let m := set_room room leaveMsg in
    fireEvent n (set_event OnRoomLeave m) ;;;
    opr (ODelRoom n room) ;;;
    fireEvent n (set_event OnRoomLeft m) ;;;
    Ret tt) ;;;
  opr (ORoomUnlock n).

(** conn.go:1007-1040 Close *)
Definition Close (c : cid) : prog unit :=
  let! first := opr (OCasClosed c) in
  if negb first then Ret tt else
  (if onlyNative c then Ret tt else
     let disconnectMsg := set_isLocal true (set_isForced true (set_event OnNamespaceDisconnect no_message)) in
     opr (ONsLock c) ;;;
     let! nss := opr (ONsRange c) in
     for_all nss (fun e =>
       let '(namespace, ns) := e in
       forceLeaveAll ns true ;;;
       fireEvent ns (set_namespace (n_name ns) disconnectMsg) ;;;
       opr (ODelNs c namespace)) ;;;
     opr (ONsUnlock c) ;;;
     opr (OWaitClear c)) ;;;
  opr (OSetAcked c false) ;;;
  (if IsClient c then Ret tt else opr (OSpawn (TDisconnect c))) ;;;
  opr (OCloseCh c) ;;;
  opr (OSockClose c).

(** conn.go:824-840 write *)
Definition write (c : cid) (b : string) (binary : bool) : prog bool :=
  let! err := opr (OSockWrite c (if binary then BinaryMessage else TextMessage) b) in
  match err with
  | Some e => (if is_close_error (Some e) then Close c else Ret tt) ;;; Ret false
  | None => Ret true
  end.

(** conn.go:141-151 Is *)
Definition Is (c : cid) (connID : string) : prog bool :=
  if is_empty connID then Ret false
  else if IsClient c then let! id := opr (OGetId c) in Ret (String.eqb id connID)
  else Ret (String.eqb (serverConnID c) connID).

(** conn.go:842-901 canWrite *)
Definition canWrite (c : cid) (m : message) : prog bool :=
  let! closed := opr (OIsClosed c) in
  if closed then Ret false else
  (if IsClient c then Ret tt else unwait c None) ;;;
  let! allowed :=
    if isConnect m || isDisconnect m then Ret true else
    (if m_locked m then Ret tt else opr (ONsRLock c)) ;;;
    let! ns := opr (OGetNs c (m_namespace m)) in
    (if m_locked m then Ret tt else opr (ONsRUnlock c)) ;;;
    match ns with
    | None => Ret false
    | Some n =>
        if negb (is_empty (m_room m)) && negb (isRoomJoin m) && negb (isRoomLeft m) then
          (if m_locked m then Ret tt else opr (ORoomRLock n)) ;;;
          let! ok := opr (OHasRoom n (m_room m)) in
          (if m_locked m then Ret tt else opr (ORoomRUnlock n)) ;;;
          Ret ok
        else Ret true
    end
  in
  if negb allowed then Ret false else
  let! self := Is c (m_fromExplicit m) in
  Ret (negb self).

(** conn.go:906-913 Write *)
Definition Write (c : cid) (m : message) : prog bool :=
  let! ok := canWrite c m in
  if negb ok then Ret false else
  match serializeMessage (set_fromExplicit "" m) with
  | Ok b => write c b (m_setBinary m)
  | Panic why => Crash why
  end.

(** conn.go:916-918 writeEmptyReply *)
Definition writeEmptyReply (c : cid) (token : string) : prog bool :=
  write c (genEmptyReplyToWait token) false.

(** conn.go:485-487 DeserializeMessage *)
Definition deserialize (c : cid) (typ : mtype) (b : string) : message :=
  DeserializeMessage (g_known G) typ b (allowNative c) (onlyNative c).

(** conn.go:941-1002 ask.  The reader goroutine of the "only the next message"
    mode is [TReadNext]. *)
Definition ask (c : cid) (x : ctxref) (m : message) (onlyNext : bool) : prog (message * option gerr) :=
  if onlyNative c then Ret (no_message, None) else
  let! closed := opr (OIsClosed c) in
  if closed then Ret (m, Some (EClose (-1) (Some EWrite))) else
  let! late := opr (OCtxLate x) in
  if late then Ret (no_message, Some EDeadline) else
  let! ch := opr (ONewChan 1) in
  let! now := opr ONow in
  let token := genWait (IsClient c) now in
  let m := set_wait token m in
  opr (OLog (LAsk c token)) ;;;
  (if onlyNext then opr (OSpawn (TReadNext c ch)) else opr (OWaitPut c token ch)) ;;;
  let! ok := Write c m in
  if negb ok then Ret (no_message, Some EWrite) else
  let! r := opr (OSelect ch x) in
  match r with
  | inl e =>
      let! closed := opr (OIsClosed c) in
      Ret (no_message, Some (if closed then EWrite else e))
  | inr receive =>
      (if onlyNext then Ret tt else opr (OWaitDel c token)) ;;;
      opr (OLog (LAskReply c token receive onlyNext)) ;;;
      Ret (receive, m_err receive)
  end.

(** conn.go:936-939 Ask *)
Definition Ask (c : cid) (x : ctxref) (m : message) : prog (message * option gerr) :=
  let! inside := opr (OIsInside c) in
  ask c x m inside.

(** Calls of a StackExchange: logged, then the configured result. *)
Definition exch_call (x : xcall) : prog unit :=
  if usesStackExchange then opr (OLog (LExch x)) else Ret tt.

(** conn.go:700-707 notifyNamespaceConnected *)
Definition notifyNamespaceConnected (c : cid) (n : nsref) (m : message) : prog unit :=
  fireEvent n (set_event OnNamespaceConnected m) ;;;
  if IsClient c then Ret tt else exch_call (XSubscribe c (n_name n)).

(** conn.go:709-713 notifyNamespaceDisconnect *)
Definition notifyNamespaceDisconnect (c : cid) (m : message) : prog unit :=
  if IsClient c then Ret tt else exch_call (XUnsubscribe c (m_namespace m)).

(** conn.go:583-597 tryNamespace *)
Definition tryNamespace (c : cid) (m : message) : prog (option nsref) :=
  let! p := proc_get c (m_namespace m) in
  proc_Wait p ;;;
  let! ns := Namespace c (m_namespace m) in
  match ns with
  | None => Write c (set_err (Some EBadNamespace) m) ;;; Ret None
  | Some n => Ret (Some n)
  end.

(** conn.go:623-627 *)
Definition connectMessage (namespace : string) : message :=
  set_isLocal true (set_event OnNamespaceConnect (set_namespace namespace no_message)).

(** conn.go:613-661: the body of askConnect between Start and Done *)
Definition askConnect_body (c : cid) (x : ctxref) (namespace : string) : prog (option nsref * option gerr) :=
  let! cur := Namespace c namespace in
  match cur with
  | Some n => Ret (Some n, None)
  | None =>
      match g_namespaces G c !! namespace with
      | None => Ret (None, Some EBadNamespace)
      | Some _ =>
          let! n := opr (ONewNs c namespace) in
          let! err := fireEvent n (connectMessage namespace) in
          match err with
          | Some e => Ret (None, Some e)
          | None =>
              let! r := Ask c x (connectMessage namespace) in
              match snd r with
              | Some e => Ret (None, Some e)
              | None =>
                  opr (ONsLock c) ;;;
                  opr (OSetNs c namespace n) ;;;
                  opr (ONsUnlock c) ;;;
                  notifyNamespaceConnected c n (connectMessage namespace) ;;;
                  Ret (Some n, None)
              end
          end
      end
  end.

(** conn.go:603-662 askConnect *)
Definition askConnect (c : cid) (x : ctxref) (namespace : string) : prog (option nsref * option gerr) :=
  let! p := proc_get c namespace in
  proc_Start p ;;;
  let! r := askConnect_body c x namespace in
  proc_Done p ;;;
  Ret r.

(** conn.go:494-498 *)
Definition syncWaitDur : Z := 15000000.
Definition maxSyncWaitDur : Z := 10000000000.

(** conn.go:514-535: one test of the loop condition, then one iteration.  The
    next iteration is the call of [AConnectLoop] with the remaining time. *)
Definition Connect_loop (c : cid) (x : ctxref) (namespace : string) (t : Z) : prog (option nsref * option gerr) :=
  let! acked := opr (OIsAcked c) in
  if acked then askConnect c x namespace else
  opr OSleep ;;;
  let t := (t - syncWaitDur)%Z in
  let! early := (if (t <=? maxSyncWaitDur / 2)%Z then opr (OIsClosed c) else Ret false) in
  if early then Ret (None, Some EWrite) else
  if (t =? 0)%Z then
    let! closed := opr (OIsClosed c) in
    Ret (None, Some (if closed then EWrite else EDeadline))
  else Call (AConnectLoop c x namespace t) Ret.

(** conn.go:504-536 Connect *)
Definition Connect (c : cid) (x : ctxref) (namespace : string) : prog (option nsref * option gerr) :=
  if IsClient c then askConnect c x namespace
  else unwait c None ;;; Connect_loop c x namespace maxSyncWaitDur.

(** conn.go:551-572 WaitConnect: one iteration *)
Definition WaitConnect (c : cid) (x : ctxref) (namespace : string) (cur : option nsref) : prog (option nsref * option gerr) :=
  let! done := opr (OCtxErr x) in
  match done with
  | Some e => Ret (None, Some e)
  | None =>
      let! ns := (match cur with Some n => Ret (Some n) | None => Namespace c namespace end) in
      match ns with
      | Some n =>
          let! acked := opr (OIsAcked c) in
          if acked then Ret (Some n, None)
          else opr OSleep ;;; Call (AWaitConnect c x namespace ns) Ret
      | None => opr OSleep ;;; Call (AWaitConnect c x namespace ns) Ret
      end
  end.

(** conn.go:664-698 replyConnect *)
Definition replyConnect (c : cid) (m : message) : prog unit :=
  if is_empty (m_wait m) || m_isNoOp m then Ret tt else
  let! cur := Namespace c (m_namespace m) in
  match cur with
  | Some _ => writeEmptyReply c (m_wait m) ;;; Ret tt
  | None =>
      match g_namespaces G c !! m_namespace m with
      | None => Write c (set_err (Some EBadNamespace) m) ;;; Ret tt
      | Some _ =>
          let! n := opr (ONewNs c (m_namespace m)) in
          let! err := fireEvent n m in
          match err with
          | Some e => Write c (set_err (Some e) m) ;;; Ret tt
          | None =>
              opr (ONsLock c) ;;;
              opr (OSetNs c (m_namespace m) n) ;;;
              opr (ONsUnlock c) ;;;
              writeEmptyReply c (m_wait m) ;;;
              notifyNamespaceConnected c n m
          end
      end
  end.

(** conn.go:737-776 askDisconnect *)
Definition askDisconnect (c : cid) (x : ctxref) (m : message) (lock : bool) : prog (option gerr) :=
  (if lock then opr (ONsRLock c) else Ret tt) ;;;
  let! ns := opr (OGetNs c (m_namespace m)) in
  (if lock then opr (ONsRUnlock c) else Ret tt) ;;;
  match ns with
  | None => Ret (Some EBadNamespace)
  | Some n =>
      let! r := Ask c x m in
      match snd r with
      | Some e => Ret (Some e)
      | None =>
          forceLeaveAll n true ;;;
          (if lock then opr (ONsLock c) else Ret tt) ;;;
          opr (ODelNs c (m_namespace m)) ;;;
          (if lock then opr (ONsUnlock c) else Ret tt) ;;;
          fireEvent n (set_isLocal true m) ;;;
          notifyNamespaceDisconnect c m ;;;
          Ret None
      end
  end.

(** conn.go:718-735 DisconnectAll *)
Definition DisconnectAll (c : cid) (x : ctxref) : prog (option gerr) :=
  if onlyNative c then Ret None else
  opr (ONsLock c) ;;;
  let disconnectMsg := set_locked true (set_isLocal true (set_event OnNamespaceDisconnect no_message)) in
  let! nss := opr (ONsRange c) in
  let! r := for_each nss (fun e => askDisconnect c x (set_namespace (fst e) disconnectMsg) false) in
  opr (ONsUnlock c) ;;;
  Ret r.

(** conn.go:778-822 replyDisconnect *)
Definition replyDisconnect (c : cid) (m : message) : prog unit :=
  if is_empty (m_wait m) || m_isNoOp m then Ret tt else
  let! cur := Namespace c (m_namespace m) in
  match cur with
  | None => writeEmptyReply c (m_wait m) ;;; Ret tt
  | Some n =>
      if IsClient c then
        forceLeaveAll n false ;;;
        opr (ONsLock c) ;;;
        opr (ODelNs c (m_namespace m)) ;;;
        opr (ONsUnlock c) ;;;
        writeEmptyReply c (m_wait m) ;;;
        fireEvent n m ;;;
        Ret tt
      else
        let! err := fireEvent n m in
        match err with
        | Some e => Write c (set_err (Some e) m) ;;; Ret tt
        | None =>
            forceLeaveAll n false ;;;
            opr (ONsLock c) ;;;
            opr (ODelNs c (m_namespace m)) ;;;
            opr (ONsUnlock c) ;;;
            notifyNamespaceDisconnect c m ;;;
            writeEmptyReply c (m_wait m) ;;;
            Ret tt
        end
  end.

(** ** conn_namespace.go, conn_room.go *)

(** conn_namespace.go:176-209 askRoomJoin *)
Definition askRoomJoin (n : nsref) (x : ctxref) (room : string) : prog (option (nsref * string) * option gerr) :=
  opr (ORoomRLock n) ;;;
  let! ok := opr (OHasRoom n room) in
  opr (ORoomRUnlock n) ;;;
  if ok then Ret (Some (n, room), None) else
  let joinMsg := set_isLocal true (set_event OnRoomJoin (set_room room (set_namespace (n_name n) no_message))) in
  let! r := Ask (n_conn n) x joinMsg in
  match snd r with
  | Some e => Ret (None, Some e)
  | None =>
      let! err := fireEvent n joinMsg in
      match err with
      | Some e => Ret (None, Some e)
      | None =>
          opr (ORoomLock n) ;;;
          opr (OAddRoom n room) ;;;
          opr (ORoomUnlock n) ;;;
          fireEvent n (set_event OnRoomJoined joinMsg) ;;;
          Ret (Some (n, room), None)
      end
  end.

(** conn_namespace.go:211-235 replyRoomJoin *)
Definition replyRoomJoin (n : nsref) (m : message) : prog unit :=
  if is_empty (m_wait m) || m_isNoOp m then Ret tt else
  opr (ORoomRLock n) ;;;
  let! ok := opr (OHasRoom n (m_room m)) in
  opr (ORoomRUnlock n) ;;;
  if ok then writeEmptyReply (n_conn n) (m_wait m) ;;; Ret tt else
  let! err := fireEvent n m in
  match err with
  | Some e => Write (n_conn n) (set_err (Some e) m) ;;; Ret tt
  | None =>
      opr (ORoomLock n) ;;;
      opr (OAddRoom n (m_room m)) ;;;
      opr (ORoomUnlock n) ;;;
      fireEvent n (set_event OnRoomJoined m) ;;;
      writeEmptyReply (n_conn n) (m_wait m) ;;;
      Ret tt
  end.

(** conn_namespace.go:237-279 askRoomLeave *)
Definition askRoomLeave (n : nsref) (x : ctxref) (m : message) (lock : bool) : prog (option gerr) :=
  (if lock then opr (ORoomRLock n) else Ret tt) ;;;
  let! ok := opr (OHasRoom n (m_room m)) in
  (if lock then opr (ORoomRUnlock n) else Ret tt) ;;;
  if negb ok then Ret (Some EBadRoom) else
  let! r := Ask (n_conn n) x m in
  match snd r with
  | Some e => Ret (Some e)
  | None =>
      let! err := fireEvent n m in
      match err with
      | Some e => Ret (Some e)
      | None =>
          (if lock then opr (ORoomLock n) else Ret tt) ;;;
          opr (ODelRoom n (m_room m)) ;;;
          (if lock then opr (ORoomUnlock n) else Ret tt) ;;;
          fireEvent n (set_event OnRoomLeft m) ;;;
          Ret None
      end
  end.

(** conn_namespace.go:99-109 Room, of a non nil NSConn *)
Definition Room (n : nsref) (room : string) : prog (option (nsref * string)) :=
  opr (ORoomRLock n) ;;;
  let! ok := opr (OHasRoom n room) in
  opr (ORoomRUnlock n) ;;;
  Ret (if ok then Some (n, room) else None).

(** conn_namespace.go:281-323 replyRoomLeave *)
Definition replyRoomLeave (n : nsref) (m : message) : prog unit :=
  if is_empty (m_wait m) || m_isNoOp m then Ret tt else
  let! room := Room n (m_room m) in
  match room with
  | None => writeEmptyReply (n_conn n) (m_wait m) ;;; Ret tt
  | Some _ =>
      if IsClient (n_conn n) then
        fireEvent n m ;;;
        opr (ORoomLock n) ;;;
        opr (ODelRoom n (m_room m)) ;;;
        opr (ORoomUnlock n) ;;;
        writeEmptyReply (n_conn n) (m_wait m) ;;;
        fireEvent n (set_event OnRoomLeft m) ;;;
        Ret tt
      else
        let! err := fireEvent n m in
        match err with
        | Some e => Write (n_conn n) (set_err (Some e) m) ;;; Ret tt
        | None =>
            opr (ORoomLock n) ;;;
            opr (ODelRoom n (m_room m)) ;;;
            opr (ORoomUnlock n) ;;;
            fireEvent n (set_event OnRoomLeft m) ;;;
            writeEmptyReply (n_conn n) (m_wait m) ;;;
            Ret tt
        end
  end.

(** conn_namespace.go:61-77 Emit, EmitBinary *)
Definition Emit (n : option nsref) (event body : string) (binary : bool) : prog bool :=
  match n with
  | None => Ret false
  | Some n => Write (n_conn n)
      (set_setBinary binary (set_body body (set_event event (set_namespace (n_name n) no_message))))
  end.

(** conn_namespace.go:80-86 Ask *)
Definition NSAsk (n : option nsref) (x : ctxref) (event body : string) : prog (message * option gerr) :=
  match n with
  | None => Ret (no_message, Some EWrite)
  | Some n => Ask (n_conn n) x (set_body body (set_event event (set_namespace (n_name n) no_message)))
  end.

(** conn_namespace.go:90-96 JoinRoom *)
Definition JoinRoom (n : option nsref) (x : ctxref) (room : string) : prog (option (nsref * string) * option gerr) :=
  match n with
  | None => Ret (None, Some EWrite)
  | Some n => askRoomJoin n x room
  end.

(** conn_namespace.go:112-123 Rooms; a nil receiver is dereferenced *)
Definition Rooms (n : option nsref) : prog (list (nsref * string)) :=
  match n with
  | None => Crash "invalid memory address or nil pointer dereference"
  | Some n =>
      opr (ORoomRLock n) ;;;
      let! rooms := opr (ORoomRange n) in
      opr (ORoomRUnlock n) ;;;
      Ret (map (fun r => (n, r)) rooms)
  end.

(** conn_namespace.go:127-144 LeaveAll *)
Definition LeaveAll (n : option nsref) (x : ctxref) : prog (option gerr) :=
  match n with
  | None => Ret None
  | Some n =>
      opr (ORoomLock n) ;;;
      let leaveMsg := set_locked true (set_isLocal true (set_event OnRoomLeave (set_namespace (n_name n) no_message))) in
      let! rooms := opr (ORoomRange n) in
      let! r := for_each rooms (fun room => askRoomLeave n x (set_room room leaveMsg) false) in
      opr (ORoomUnlock n) ;;;
      Ret r
  end.

(** conn_namespace.go:165-174 Disconnect *)
Definition Disconnect (n : option nsref) (x : ctxref) : prog (option gerr) :=
  match n with
  | None => Ret None
  | Some n => askDisconnect (n_conn n) x (set_event OnNamespaceDisconnect (set_namespace (n_name n) no_message)) true
  end.

(** conn_room.go:33-40 Emit *)
Definition RoomEmit (n : nsref) (room event body : string) : prog bool :=
  Write (n_conn n) (set_body body (set_event event (set_room room (set_namespace (n_name n) no_message)))).

(** conn_room.go:44-50 Leave *)
Definition RoomLeave (n : nsref) (room : string) (x : ctxref) : prog (option gerr) :=
  askRoomLeave n x (set_event OnRoomLeave (set_room room (set_namespace (n_name n) no_message))) true.

(** ** conn.go: store *)

(** conn.go:219-237 Increment, 252-269 Decrement ([d] is 1 or -1); the sum
    wraps around like a 64 bit int *)
Definition add_counter (c : cid) (k : string) (d : Z) : prog Z :=
  let! v := opr (OStoreGet c k) in
  match v with
  | Some (SInt z) => opr (OStoreSet c k (SInt (Store.wrap64 (z + d)))) ;;; Ret (Store.wrap64 (z + d))
  | _ => opr (OStoreSet c k (SInt d)) ;;; Ret d
  end.

(** ** conn.go: reading *)

(** conn.go:437, 446: [ch <- msg] *)
Definition send (ch : chid) (m : message) : prog unit :=
  let! k := opr (OChSend ch m) in
  opr (OChSent ch k).

(** conn.go:452-481: the switch of handleMessage *)
Definition handle_event (c : cid) (m : message) : prog (option gerr) :=
  if String.eqb (m_event m) OnNamespaceConnect then replyConnect c m ;;; Ret None
  else if String.eqb (m_event m) OnNamespaceDisconnect then replyDisconnect c m ;;; Ret None
  else if String.eqb (m_event m) OnRoomJoin then
    let! ns := tryNamespace c m in
    match ns with Some n => replyRoomJoin n m ;;; Ret None | None => Ret None end
  else if String.eqb (m_event m) OnRoomLeave then
    let! ns := tryNamespace c m in
    match ns with Some n => replyRoomLeave n m ;;; Ret None | None => Ret None end
  else
    let! ns := tryNamespace c m in
    match ns with
    | None => Ret (Some EBadNamespace)
    | Some n =>
        let m := set_isLocal false m in
        let! err := fireEvent n m in
        match err with
        | Some e => Write c (set_err (Some e) m) ;;; Ret (Some e)
        | None => Ret None
        end
    end.

(** conn.go:442-450 and the switch *)
Definition handle_reply_or_event (c : cid) (m : message) : prog (option gerr) :=
  let! w := opr (OWaitGet c (m_wait m)) in
  match w with
  | Some ch => send ch m ;;; Ret None
  | None => handle_event c m
  end.

(** conn.go:416-482 handleMessage *)
Definition handleMessage (c : cid) (m : message) : prog (option gerr) :=
  if m_isInvalid m then Ret (Some EInvalidPayload) else
  if m_isNative m && onlyNative c then
    let! ns := Namespace c "" in
    match ns with
    | Some n => fireEvent n m
    | None => Crash "invalid memory address or nil pointer dereference"
    end
  else if IsWait (IsClient c) m then
    if IsClient c then handle_reply_or_event c m
    else
      match g_exch G with
      | Some x =>
          if m_fromStackExchange m then
            opr (OLog (LExch (XNotifyAsk m (m_wait m)))) ;;;
            Ret (x_notify x m (m_wait m))
          else
            let! w := opr (OSWaitGet (m_wait m)) in
            match w with
            | Some ch => send ch m ;;; Ret None
            | None => handle_reply_or_event c m
            end
      | None =>
          let! w := opr (OSWaitGet (m_wait m)) in
          match w with
          | Some ch => send ch m ;;; Ret None
          | None => handle_reply_or_event c m
          end
      end
  else handle_event c m.

(** conn.go:490-492 HandlePayload *)
Definition HandlePayload (c : cid) (typ : mtype) (b : string) : prog (option gerr) :=
  handleMessage c (deserialize c typ b).

(** conn.go:281-286 *)
Definition ackBinary : ascii := "M"%char.
Definition ackIDBinary : ascii := "A"%char.
Definition ackNotOKBinary : ascii := "H"%char.

(** conn.go:399-410 handleQueue.  queueMutex is only taken by the reader
    goroutine of the connection and is left out. *)
Definition handleQueue (c : cid) : prog unit :=
  let! qs := opr (OQRange c) in
  for_all qs (fun e =>
    let '(typ, q) := e in
    for_all q (fun b => HandlePayload c typ b ;;; Ret tt) ;;;
    opr (OQDel c typ)).

(** conn.go:348-397 handleACK; [b] is not empty *)
Definition handleACK (c : cid) (typ : mtype) (b : string) : prog bool :=
  match b with
  | EmptyString => Crash "index out of range"
  | String a rest =>
      if Ascii.eqb a ackBinary then
        let! err := wait c in
        match err with
        | Some e =>
            match err_text e with
            | Ok text => write c (String ackNotOKBinary text) false ;;; Ret false
            | Panic why => Crash why
            end
        | None =>
            opr (OLog (LAcked c)) ;;;
            opr (OSetAcked c true) ;;;
            handleQueue c ;;;
            let! id := opr (OGetId c) in
            write c (String ackIDBinary id) false
        end
      else if Ascii.eqb a ackIDBinary then
        opr (OSetId c rest) ;;;
        opr (OLog (LAcked c)) ;;;
        opr (OSetAcked c true) ;;;
        unwait c None ;;;
        Ret true
      else if Ascii.eqb a ackNotOKBinary then
        unwait c (Some (ENew rest)) ;;;
        Ret false
      else
        opr (OQPush c typ b) ;;;
        Ret true
  end.

(** conn.go:294-314 sendClientACK *)
Definition sendClientACK (c : cid) : prog (option gerr) :=
  if onlyNative c then Ret None else
  let! ok := write c (String ackBinary EmptyString) false in
  if negb ok then Close c ;;; Ret (Some EWrite) else
  let! err := wait c in
  match err with
  | Some e => Close c ;;; Ret (Some e)
  | None => Ret None
  end.

(** conn.go:324-345: one iteration of the loop of startReader; [true] to go on *)
Definition reader_step (c : cid) : prog bool :=
  let! r := opr (ORead c) in
  match r with
  | inl e => unwait c (Some e) ;;; Ret false
  | inr (typ, b) =>
      if is_empty b then Ret true else
      let! acked := opr (OIsAcked c) in
      if negb acked then handleACK c typ b
      else
        opr (OSetInside c true) ;;;
        HandlePayload c typ b ;;;
        opr (OSetInside c false) ;;;
        Ret true
  end.

(** conn.go:968-976: the goroutine of an Ask inside a callback *)
Definition read_next (c : cid) (ch : chid) : prog unit :=
  let! r := opr (ORead c) in
  match r with
  | inl e => send ch (set_isError true (set_err (Some e) no_message))
  | inr (typ, b) => send ch (deserialize c typ b)
  end.

(** ** server.go *)

(** server.go:436-456 publishMessages *)
Fixpoint publishMessages (c : cid) (msgs : list message) : prog bool :=
  match msgs with
  | [] => Ret true
  | m :: rest =>
      let! id := opr (OGetId c) in
      if String.eqb (m_from m) id then Ret true
      else if negb (is_empty (m_to m)) && negb (String.eqb (m_to m) id) then Ret true
      else
        let! ok := Write c m in
        if ok then publishMessages c rest
        else
          let! closed := opr (OIsClosed c) in
          if closed then Ret false else publishMessages c rest
  end.

(** The same preceded by a log entry, for the two delivery paths. *)
Definition publish (c : cid) (msgs : list message) : prog bool :=
  opr (OLog (LBatch c msgs)) ;;; publishMessages c msgs.

(** server.go:458-468 waitMessages with broadcaster.go:41-53 waitUntilClosed.
    [false] ends the goroutine of the connection. *)
Definition waitMessages (c : cid) : prog bool :=
  opr OBLock ;;;
  let! g := opr OBAwaiter in
  opr OBUnlock ;;;
  let! ok := opr (OBSelect g c) in
  if ok then
    let! msgs := opr OBGet in
    opr OBLock ;;;
    let! r := publish c msgs in
    opr OBUnlock ;;;
    Ret r
  else
    opr OBLock ;;;
    opr OBUnlock ;;;
    Ret false.

(** broadcaster.go:31-39 broadcast *)
Definition broadcast (msgs : list message) : prog unit :=
  opr OBLock ;;;
  opr (OBSet msgs) ;;;
  opr OBUnlock ;;;
  let! old := opr OBSwap in
  opr (OBClose old).

(** server.go:506-525: the exclusion fields.  Broadcast writes them into the
    caller's slice; what the slice holds after the call is in Slice.v. *)
Definition exclude (fromExplicit from : string) (m : message) : message :=
  if negb (is_empty from) then set_from from m else set_fromExplicit fromExplicit m.

Definition exclusion (except : sender) : prog (string * string) :=
  match except with
  | SendConn c => Ret (serverConnID c, ""%string)
  | SendNS n => Ret (serverConnID (n_conn n), ""%string)
  | SendRoom n => let! id := opr (OGetId (n_conn n)) in Ret (""%string, id)
  | SendExclude s => Ret (""%string, s)
  end.

(** server.go:504-538 Broadcast *)
Definition Broadcast (except : option sender) (msgs : list message) : prog unit :=
  let! msgs :=
    match except with
    | None => Ret msgs
    | Some s =>
        let! e := exclusion s in
        Ret (map (exclude (fst e) (snd e)) msgs)
    end in
  if usesStackExchange then exch_call (XPublish msgs)
  else if g_sync G then
    let! k := opr (OBcSend msgs) in opr (OBcAccepted k)
  else broadcast msgs.

(** conn_namespace.go:50-57 Broadcast, BroadcastOthers: a client-side
    connection has a nil server, which Broadcast dereferences *)
Definition NSBroadcast (n : option nsref) (others : bool) (msgs : list message) : prog unit :=
  match n with
  | None => Crash "invalid memory address or nil pointer dereference"
  | Some n =>
      if IsClient (n_conn n) then Crash "invalid memory address or nil pointer dereference"
      else Broadcast (if others then Some (SendConn (n_conn n)) else None) msgs
  end.

(** server.go:548-577 Ask *)
Definition ServerAsk (x : ctxref) (m : message) : prog (message * option gerr) :=
  let! now := opr ONow in
  let token := genWait false now in
  match g_exch G with
  | Some e =>
      let token := genWaitStackExchange token in
      opr (OLog (LExch (XAsk (set_wait token m) token))) ;;;
      Ret (x_ask e x (set_wait token m) token)
  | None =>
      let m := set_wait token m in
      let! ch := opr (ONewChan 0) in
      opr (OSWaitPut token ch) ;;;
      Broadcast None [m] ;;;
      let! r := opr (OSelect ch x) in
      match r with
      | inl e => Ret (no_message, Some e)
      | inr receive =>
          opr (OSWaitDel token) ;;;
          opr (OLog (LServerReply token receive)) ;;;
          Ret (receive, m_err receive)
      end
  end.

(** server.go:422-434 Do *)
Definition DoAct (f : actfn) (async : bool) : prog unit :=
  let! k := opr (OActSend f (negb async)) in
  opr (OActAccepted k) ;;;
  if async then Ret tt else opr (OActWait k).

(** server.go:210-216 Close *)
Definition ServerClose : prog unit :=
  let! first := opr OSClosedCas in
  if first then DoAct ActClose false else Ret tt.

(** server.go:604-614 GetConnections, 585-597 GetConnectionsByNamespace (the
    read of [connections] is documented as not thread safe) *)
Fixpoint collect_conns (l : list cid) (acc : gmap string cid) : prog (gmap string cid) :=
  match l with
  | [] => Ret acc
  | c :: l' => let! id := opr (OGetId c) in collect_conns l' (<[id := c]> acc)
  end.
Fixpoint collect_nss (l : list cid) (name : string) (acc : gmap string nsref) : prog (gmap string nsref) :=
  match l with
  | [] => Ret acc
  | c :: l' =>
      let! ns := Namespace c name in
      match ns with
      | Some n => let! id := opr (OGetId c) in collect_nss l' name (<[id := n]> acc)
      | None => collect_nss l' name acc
      end
  end.

(** server.go:199: [act.call(c)] *)
Definition act_call (f : actfn) (c : cid) : prog unit :=
  match f with
  | ActClose => Close c
  | ActUser k => opr (OLog (LDo k c)) ;;; g_do G k c
  end.

(** server.go:170-206: one iteration of the server loop *)
Definition server_step : prog unit :=
  let! x := opr OSrvSelect in
  opr (OLog (LSrv x)) ;;;
  match x with
  | SConnect c => opr (OSAdd c) ;;; opr (OSCountAdd 1)
  | SDisconnect c =>
      let! known := opr (OSMem c) in
      if negb known then Ret tt else
      opr (OSDel c) ;;;
      opr (OSCountAdd (-1)) ;;;
      let! skip :=
        match g_ondisconnect G with
        | None => Ret false
        | Some f =>
            let! quiet :=
              if g_firealways G then Ret false else
              let! ready := opr (OWReady c) in
              if negb ready then Ret true else
              let! err := opr (OWErr c) in
              Ret (match err with Some _ => true | None => false end) in
            if quiet : bool then Ret true
            else opr (OLog (LOnDisconnect c)) ;;; f c ;;; Ret false
        end in
      if skip : bool then Ret tt else exch_call (XOnDisconnect c)
  | SBroadcast msgs =>
      let! cs := opr OSRange in
      for_all cs (fun c => publish c msgs ;;; Ret tt)
  | SAction a =>
      let! cs := opr OSRange in
      for_all cs (fun c => act_call (a_fn a) c) ;;;
      if a_sync a then opr (OActDone (a_ticket a)) else Ret tt
  end.

(** server.go:285-397 Upgrade of a GET request that the upgrader accepts.  The
    request method, the headers and the upgrader are modelled in Http.v. *)
Definition Upgrade (c : cid) : prog unit :=
  let! closed := opr OSClosedLoad in
  if closed then opr (OLog (LUpgraded c (Some EServerClosed))) else
  newConn c ;;;
  (if negb usesStackExchange && negb (g_sync G) then opr (OSpawn (TWaitMessages c)) else Ret tt) ;;;
  opr (OSConnSend c) ;;;
  opr (OSpawn (TReader c)) ;;;
  let! xerr :=
    match g_exch G with
    | None => Ret None
    | Some x => opr (OLog (LExch (XOnConnect c))) ;;; Ret (x_onconnect x c)
    end in
  match xerr with
  | Some e => unwait c (Some e) ;;; opr (OLog (LUpgraded c (Some e)))
  | None =>
      let! err :=
        match g_onconnect G with
        | None => Ret None
        | Some f => opr (OLog (LOnConnect c)) ;;; f c
        end in
      match err with
      | Some e => unwait c (Some e) ;;; opr (OLog (LUpgraded c (Some e)))
      | None => unwait c None ;;; opr (OLog (LUpgraded c None))
      end
  end.

(** client.go:87-98 Dial after a successful dial *)
Definition Dial (c : cid) : prog unit :=
  newConn c ;;;
  opr (OSpawn (TReader c)) ;;;
  let! err := sendClientACK c in
  match err with
  | Some e => opr (OLog (LDial c (Some e) ""))
  | None => let! id := opr (OGetId c) in opr (OLog (LDial c None id))
  end.

(** ** Goroutines and API calls *)

(** The program of a goroutine; it may continue as another one (a loop). *)
Definition code (t : tcode) : prog (option tcode) :=
  match t with
  | TUser k => g_user G k ;;; Ret None
  | TReader c =>                                   (* conn.go:316-320 *)
      let! closed := opr (OIsClosed c) in
      Ret (if closed then None else Some (TReaderLoop c))
  | TReaderLoop c =>                               (* conn.go:320-346 *)
      let! go := reader_step c in
      if go then Ret (Some (TReaderLoop c)) else Close c ;;; Ret None
  | TReadNext c ch => read_next c ch ;;; Ret None
  | TDisconnect c => opr (OSDiscSend c) ;;; Ret None
  | TServer => opr OSClosedReset ;;; Ret (Some TServerLoop)  (* server.go:168 *)
  | TServerLoop => server_step ;;; Ret (Some TServerLoop)
  | TUpgrade c => Upgrade c ;;; Ret None
  | TWaitMessages c =>                             (* server.go:339-342 *)
      let! go := waitMessages c in
      Ret (if go then Some (TWaitMessages c) else None)
  | TDial c => Dial c ;;; Ret None
  end.

(** The program of an API call. *)
Definition impl (a : api) : prog (ares a) :=
  match a as a return prog (ares a) with
  | AConnect c x ns => Connect c x ns
  | AConnectLoop c x ns t => Connect_loop c x ns t
  | AWaitConnect c x ns cur => WaitConnect c x ns cur
  | ANamespace c ns => Namespace c ns
  | ADisconnectAll c x => DisconnectAll c x
  | AWrite c m => Write c m
  | AAsk c x m => Ask c x m
  | AClose c => Close c
  | AIsClosed c => opr (OIsClosed c)
  | AGetID c => opr (OGetId c)
  | ASet c k v => opr (OStoreSet c k v)
  | AGet c k => opr (OStoreGet c k)
  | AIncrement c k => add_counter c k 1
  | ADecrement c k => add_counter c k (-1)
  | AHandlePayload c typ b => HandlePayload c typ b
  | AEmit n event body => Emit n event body false
  | AEmitBinary n event body => Emit n event body true
  | ANSAsk n x event body => NSAsk n x event body
  | AJoinRoom n x room => JoinRoom n x room
  | ARoom n room => match n with None => Ret None | Some n => Room n room end
  | ARooms n => Rooms n
  | ALeaveAll n x => LeaveAll n x
  | ADisconnect n x => Disconnect n x
  | ARoomEmit n room event body => RoomEmit n room event body
  | ARoomLeave n room x => RoomLeave n room x
  | ANSBroadcast n others msgs => NSBroadcast n others msgs
  | ABroadcast except msgs => Broadcast except msgs
  | AServerAsk x m => ServerAsk x m
  | ADo k async => DoAct (ActUser k) async
  | AServerClose => ServerClose
  | ATotal => opr OSCount
  | AGetConnections => let! cs := opr OSRange in collect_conns cs ∅
  | AGetConnectionsByNamespace ns => let! cs := opr OSRange in collect_nss cs ns ∅
  end.

End code.
