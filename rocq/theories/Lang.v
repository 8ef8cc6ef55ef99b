(** * Lang.v : a small Go-like language.

    A goroutine is a tree of atomic operations.  [ostep] says what an operation
    of goroutine [t] does to the world: go on, block, or panic. *)
From Coq Require Import ZArith.
From stdpp Require Import gmap strings list.
From RecordUpdate Require Import RecordUpdate.
From Verif Require Import Go Errors Message World.

(** Atomic operations. *)
Inductive op : Type :=
(* connectedNamespacesMutex and connectedNamespaces of a Conn *)
| ONsLock (c : cid) | ONsUnlock (c : cid) | ONsRLock (c : cid) | ONsRUnlock (c : cid)
| OGetNs (c : cid) (name : string) | OSetNs (c : cid) (name : string) (n : nsref)
| ODelNs (c : cid) (name : string) | ONsRange (c : cid)
(* a NSConn: allocation, roomsMutex and rooms *)
| ONewNs (c : cid) (name : string)
| ORoomLock (n : nsref) | ORoomUnlock (n : nsref) | ORoomRLock (n : nsref) | ORoomRUnlock (n : nsref)
| OHasRoom (n : nsref) (r : string) | OAddRoom (n : nsref) (r : string)
| ODelRoom (n : nsref) (r : string) | ORoomRange (n : nsref)
(* readiness waiter *)
| OWReady (c : cid) | OWErr (c : cid) | OWSetErr (c : cid) (e : option gerr) | OWSetReady (c : cid)
| OWCasLock (c : cid) | OWCasUnlock (c : cid) | OWClose (c : cid) | OWRecv (c : cid)
(* processes *)
| OProcGet (c : cid) (name : string) | OProcNew (c : cid) (name : string)
| OProcAdd (p : pid) | OProcDoneCas (p : pid) | OProcDone (p : pid) | OProcIsDone (p : pid)
| OProcWait (p : pid) | OProcWoken (p : pid) (gen : nat)
(* waiting messages and channels *)
| OWaitPut (c : cid) (tok : string) (ch : chid) | OWaitDel (c : cid) (tok : string)
| OWaitGet (c : cid) (tok : string) | OWaitClear (c : cid)
| OSWaitPut (tok : string) (ch : chid) | OSWaitDel (tok : string) | OSWaitGet (tok : string)
| ONewChan (cap : nat) | OChSend (ch : chid) (m : message) | OChSent (ch : chid) (ticket : nat)
| OSelect (ch : chid) (x : ctxref)
| OCtxLate (x : ctxref) | OCtxErr (x : ctxref)
(* flags, id, store of a Conn *)
| OIsAcked (c : cid) | OSetAcked (c : cid) (b : bool)
| OIsInside (c : cid) | OSetInside (c : cid) (b : bool)
| OIsClosed (c : cid) | OCasClosed (c : cid) | OCloseCh (c : cid)
| OGetId (c : cid) | OSetId (c : cid) (s : string)
| OStoreGet (c : cid) (k : string) | OStoreSet (c : cid) (k : string) (v : sval)
(* socket *)
| ORead (c : cid) | OSockWrite (c : cid) (typ : mtype) (b : string) | OSockClose (c : cid)
(* queue *)
| OQPush (c : cid) (typ : mtype) (b : string) | OQRange (c : cid) | OQDel (c : cid) (typ : mtype)
(* server *)
| OSClosedLoad | OSClosedCas | OSClosedReset
| OSConnSend (c : cid) | OSDiscSend (c : cid)
| OActSend (f : actfn) (sync : bool) | OActAccepted (ticket : nat) | OActWait (ticket : nat) | OActDone (ticket : nat)
| OBcSend (msgs : list message) | OBcAccepted (ticket : nat)
| OSrvSelect
| OSAdd (c : cid) | OSMem (c : cid) | OSDel (c : cid) | OSCountAdd (z : Z) | OSCount | OSRange
(* asynchronous broadcaster *)
| OBLock | OBUnlock | OBSet (msgs : list message) | OBGet | OBSwap | OBClose (g : nat) | OBAwaiter | OBSelect (g : nat) (c : cid)
(* other *)
| ONewConn (c : cid) (id : string) (native_only : bool)
| ONow | OSleep | OSpawn (code : tcode) | OLog (e : event).

(** Result types. *)
Definition res (o : op) : Type :=
  match o with
  | OGetNs _ _ => option nsref
  | ONsRange _ => list (string * nsref)
  | ONewNs _ _ => nsref
  | OHasRoom _ _ => bool
  | ORoomRange _ => list string
  | OWReady _ => bool
  | OWErr _ => option gerr
  | OWCasLock _ | OWCasUnlock _ => bool
  | OProcGet _ _ => option pid
  | OProcNew _ _ => pid
  | OProcDoneCas _ | OProcIsDone _ => bool
  | OProcWait _ => option nat
  | OWaitGet _ _ | OSWaitGet _ => option chid
  | ONewChan _ => chid
  | OChSend _ _ => nat
  | OSelect _ _ => (gerr + message)%type
  | OCtxLate _ => bool
  | OCtxErr _ => option gerr
  | OIsAcked _ | OIsInside _ | OIsClosed _ | OCasClosed _ => bool
  | OGetId _ => string
  | OStoreGet _ _ => option sval
  | ORead _ => (gerr + mtype * string)%type
  | OSockWrite _ _ _ => option gerr
  | OQRange _ => list (mtype * list string)
  | OSClosedLoad | OSClosedCas => bool
  | OActSend _ _ => nat
  | OBcSend _ => nat
  | OSrvSelect => srvmsg
  | OSMem _ => bool
  | OSCount => Z
  | OSRange => list cid
  | OBGet => list message
  | OBSwap => nat
  | OBAwaiter => nat
  | OBSelect _ _ => bool
  | ONow => Z
  | _ => unit
  end.

Inductive outcome (R : Type) : Type :=
| Goes (w : world) (r : R)
| Blocked
| Panics (why : string).
Arguments Goes {R} w r.
Arguments Blocked {R}.
Arguments Panics {R} why.

Definition use_of_closed : gerr := EOp OpOther "use of closed network connection" false.

(** What a select on a reply channel and a context may deliver
    (conn.go:987-1001, server.go:567-576): a ready reply, a done context, or
    either of them if both are ready. *)
Definition select_reply (w : world) (ch : chid) (x : ctxref) : list (gerr + message) :=
  match x with
  | Some k => match w_ctxs w !! k with
              | Some xc => match x_done xc with Some e => [inl e] | None => [] end
              | None => []
              end
  | None => []
  end ++
  match ch_buf (chan_of w ch) with m :: _ => [inr m] | [] => [] end.

(** What the server loop may receive next. *)
Definition srv_ready (s : server) : list srvmsg :=
  match s_connbuf s with c :: _ => [SConnect c] | [] => [] end ++
  match s_disc s with c :: _ => [SDisconnect c] | [] => [] end ++
  match s_bcast s with m :: _ => [SBroadcast m] | [] => [] end ++
  match s_acts s with a :: _ => [SAction a] | [] => [] end.

Definition srv_take (x : srvmsg) (s : server) : server :=
  match x with
  | SConnect _ => s <| s_connbuf ::= @tl cid |>
  | SDisconnect _ => s <| s_disc ::= @tl cid |>
  | SBroadcast _ => s <| s_bcast ::= @tl (list message) |> <| s_bcaccepted ::= S |>
  | SAction _ => s <| s_acts ::= @tl act |> <| s_actaccepted ::= S |>
  end.

(** Choose one element by the current seed. *)
Definition pick {A} (w : world) (l : list A) : option A := nth_error l (seed w mod length l).

Definition ostep (t : tid) (w : world) (o : op) : outcome (res o) :=
  match o as o return outcome (res o) with
  | ONsLock c =>
      if rw_can_lock (c_nsmu (conn_of w c))
      then Goes (upd_conn c (fun k => k <| c_nsmu := RW (Some t) [] |>) w) tt else Blocked
  | ONsUnlock c =>
      if rw_holds t (c_nsmu (conn_of w c))
      then Goes (upd_conn c (fun k => k <| c_nsmu := rw0 |>) w) tt
      else Panics "sync: unlock of unlocked mutex"
  | ONsRLock c =>
      if rw_can_rlock (c_nsmu (conn_of w c))
      then Goes (upd_conn c (fun k => k <| c_nsmu ::= fun l => l <| rw_readers ::= cons t |> |>) w) tt else Blocked
  | ONsRUnlock c =>
      if rw_reads t (c_nsmu (conn_of w c))
      then Goes (upd_conn c (fun k => k <| c_nsmu ::= fun l => l <| rw_readers ::= remove1 t |> |>) w) tt
      else Panics "sync: unlock of unlocked mutex"
  | OGetNs c name => Goes w (c_nss (conn_of w c) !! name)
  | OSetNs c name n => Goes (upd_conn c (fun k => k <| c_nss ::= <[name := n]> |>) w) tt
  | ODelNs c name => Goes (upd_conn c (fun k => k <| c_nss ::= delete name |>) w) tt
  | ONsRange c => Goes (pop_seed w) (permute (seed w) (map_to_list (c_nss (conn_of w c))))
  | ONewNs c name =>
      let n := NsRef c name (w_next w) in
      Goes (w <| w_nss ::= <[w_next w := nsobj0 n]> |> <| w_next ::= S |>) n
  | ORoomLock n =>
      if rw_can_lock (o_mu (ns_of w n))
      then Goes (upd_ns n (fun k => k <| o_mu := RW (Some t) [] |>) w) tt else Blocked
  | ORoomUnlock n =>
      if rw_holds t (o_mu (ns_of w n))
      then Goes (upd_ns n (fun k => k <| o_mu := rw0 |>) w) tt
      else Panics "sync: unlock of unlocked mutex"
  | ORoomRLock n =>
      if rw_can_rlock (o_mu (ns_of w n))
      then Goes (upd_ns n (fun k => k <| o_mu ::= fun l => l <| rw_readers ::= cons t |> |>) w) tt else Blocked
  | ORoomRUnlock n =>
      if rw_reads t (o_mu (ns_of w n))
      then Goes (upd_ns n (fun k => k <| o_mu ::= fun l => l <| rw_readers ::= remove1 t |> |>) w) tt
      else Panics "sync: unlock of unlocked mutex"
  | OHasRoom n r => Goes w (bool_decide (r ∈ o_rooms (ns_of w n)))
  | OAddRoom n r => Goes (upd_ns n (fun k => k <| o_rooms ::= fun s => {[r]} ∪ s |>) w) tt
  | ODelRoom n r => Goes (upd_ns n (fun k => k <| o_rooms ::= fun s => s ∖ {[r]} |>) w) tt
  | ORoomRange n => Goes (pop_seed w) (permute (seed w) (elements (o_rooms (ns_of w n))))
  | OWReady c => Goes w (w_ready (c_wait (conn_of w c)))
  | OWErr c => Goes w (w_err (c_wait (conn_of w c)))
  | OWSetErr c e => Goes (upd_conn c (fun k => k <| c_wait ::= fun x => x <| w_err := e |> |>) w) tt
  | OWSetReady c => Goes (upd_conn c (fun k => k <| c_wait ::= fun x => x <| w_ready := true |> |>) w) tt
  | OWCasLock c =>
      if w_locked (c_wait (conn_of w c)) then Goes w false
      else Goes (upd_conn c (fun k => k <| c_wait ::= fun x => x <| w_locked := true |> |>) w) true
  | OWCasUnlock c =>
      if w_locked (c_wait (conn_of w c))
      then Goes (upd_conn c (fun k => k <| c_wait ::= fun x => x <| w_locked := false |> |>) w) true
      else Goes w false
  | OWClose c =>
      if w_chclosed (c_wait (conn_of w c)) then Panics "close of closed channel"
      else Goes (upd_conn c (fun k => k <| c_wait ::= fun x => x <| w_chclosed := true |> |>) w) tt
  | OWRecv c => if w_chclosed (c_wait (conn_of w c)) then Goes w tt else Blocked
  | OProcGet c name => Goes w (c_procs (conn_of w c) !! name)
  | OProcNew c name =>
      let p := w_next w in
      Goes (upd_conn c (fun k => k <| c_procs ::= <[name := p]> |>)
              (w <| w_procs ::= <[p := proc0]> |> <| w_next ::= S |>)) p
  | OProcAdd p => Goes (upd_proc p (fun k => k <| p_count ::= S |>) w) tt
  | OProcDoneCas p =>
      if p_done (proc_of w p) then Goes w false
      else Goes (upd_proc p (fun k => k <| p_done := true |>) w) true
  | OProcDone p =>
      match p_count (proc_of w p) with
      | O => Panics "sync: negative WaitGroup counter"
      | 1 => Goes (upd_proc p (fun k => match p_waiters k with
                                        | O => k <| p_count := 0 |>
                                        | S _ => k <| p_count := 0 |> <| p_waiters := 0 |> <| p_gen ::= S |>
                                        end) w) tt
      | S _ => Goes (upd_proc p (fun k => k <| p_count ::= pred |>) w) tt
      end
  | OProcIsDone p => Goes w (p_done (proc_of w p))
  (* WaitGroup.Wait: return at once, or register and sleep; a woken caller
     panics if the WaitGroup is in use again (sync/waitgroup.go) *)
  | OProcWait p =>
      match p_count (proc_of w p) with
      | O => Goes w None
      | S _ => Goes (upd_proc p (fun k => k <| p_waiters ::= S |>) w) (Some (p_gen (proc_of w p)))
      end
  | OProcWoken p g =>
      if g <? p_gen (proc_of w p) then
        match p_count (proc_of w p), p_waiters (proc_of w p) with
        | O, O => Goes w tt
        | _, _ => Panics "sync: WaitGroup is reused before previous Wait has returned"
        end
      else Blocked
  | OWaitPut c tok ch => Goes (upd_conn c (fun k => k <| c_waiting ::= <[tok := ch]> |>) w) tt
  | OWaitDel c tok => Goes (upd_conn c (fun k => k <| c_waiting ::= delete tok |>) w) tt
  | OWaitGet c tok => Goes w (c_waiting (conn_of w c) !! tok)
  | OWaitClear c => Goes (upd_conn c (fun k => k <| c_waiting := ∅ |>) w) tt
  | OSWaitPut tok ch => Goes (upd_srv (fun s => s <| s_waiting ::= <[tok := ch]> |>) w) tt
  | OSWaitDel tok => Goes (upd_srv (fun s => s <| s_waiting ::= delete tok |>) w) tt
  | OSWaitGet tok => Goes w (s_waiting (w_srv w) !! tok)
  | ONewChan cap =>
      let ch := w_next w in
      Goes (w <| w_chans ::= <[ch := chan0 cap]> |> <| w_next ::= S |>) ch
  | OChSend ch m =>
      match ch_buf (chan_of w ch) with
      | [] => let k := S (ch_sent (chan_of w ch)) in
              Goes (upd_chan ch (fun x => x <| ch_buf := [m] |> <| ch_sent := k |>) w) k
      | _ => Blocked
      end
  | OChSent ch k =>
      if (1 <=? ch_cap (chan_of w ch)) || (k <=? ch_taken (chan_of w ch)) then Goes w tt else Blocked
  | OSelect ch x =>
      match pick w (select_reply w ch x) with
      | None => Blocked
      | Some (inl e) => Goes (pop_seed w) (inl e)
      | Some (inr m) =>
          Goes (upd_chan ch (fun y => y <| ch_buf ::= @tl message |> <| ch_taken ::= S |>) (pop_seed w)) (inr m)
      end
  | OCtxLate x =>
      Goes w (match x with
              | Some k => match w_ctxs w !! k with
                          | Some xc => match x_deadline xc with
                                       | Some d => (d <? w_now w - 1000000000)%Z
                                       | None => false
                                       end
                          | None => false
                          end
              | None => false
              end)
  | OCtxErr x =>
      Goes w (match x with
              | Some k => match w_ctxs w !! k with Some xc => x_done xc | None => None end
              | None => None
              end)
  | OIsAcked c => Goes w (c_acked (conn_of w c))
  | OSetAcked c b => Goes (upd_conn c (fun k => k <| c_acked := b |>) w) tt
  | OIsInside c => Goes w (c_inside (conn_of w c))
  | OSetInside c b => Goes (upd_conn c (fun k => k <| c_inside := b |>) w) tt
  | OIsClosed c => Goes w (c_closed (conn_of w c))
  | OCasClosed c =>
      if c_closed (conn_of w c) then Goes w false
      else Goes (upd_conn c (fun k => k <| c_closed := true |>) w) true
  | OCloseCh c =>
      if c_closeCh (conn_of w c) then Panics "close of closed channel"
      else Goes (upd_conn c (fun k => k <| c_closeCh := true |>) w) tt
  | OGetId c => Goes w (c_id (conn_of w c))
  | OSetId c s => Goes (upd_conn c (fun k => k <| c_id := s |>) w) tt
  | OStoreGet c k => Goes w (c_store (conn_of w c) !! k)
  | OStoreSet c k v => Goes (upd_conn c (fun x => x <| c_store ::= <[k := v]> |>) w) tt
  | ORead c =>
      let k := conn_of w c in
      if c_sockclosed k then Goes w (inl use_of_closed)
      else match c_in k with
           | f :: _ => Goes (upd_conn c (fun k => k <| c_in ::= @tl (mtype * string) |>) w) (inr f)
           | [] => match c_inend k with Some e => Goes w (inl e) | None => Blocked end
           end
  | OSockWrite c typ b =>
      let k := conn_of w c in
      if c_sockclosed k then Goes w (Some use_of_closed)
      else match c_wfail k with
           | Some e => Goes w (Some e)
           | None => Goes (upd_conn c (fun k => k <| c_out ::= fun l => l ++ [(typ, b)] |>) w) None
           end
  | OSockClose c => Goes (upd_conn c (fun k => k <| c_sockclosed := true |>) w) tt
  | OQPush c typ b =>
      Goes (upd_conn c (fun k => match typ with
                                 | TextMessage => k <| c_qtext ::= fun l => l ++ [b] |>
                                 | BinaryMessage => k <| c_qbin ::= fun l => l ++ [b] |>
                                 end) w) tt
  | OQRange c =>
      let k := conn_of w c in
      let qs := match c_qtext k with [] => [] | q => [(TextMessage, q)] end ++
                match c_qbin k with [] => [] | q => [(BinaryMessage, q)] end in
      Goes (pop_seed w) (permute (seed w) qs)
  | OQDel c typ =>
      Goes (upd_conn c (fun k => match typ with
                                 | TextMessage => k <| c_qtext := [] |>
                                 | BinaryMessage => k <| c_qbin := [] |>
                                 end) w) tt
  | OSClosedLoad => Goes w (s_closed (w_srv w))
  | OSClosedCas =>
      if s_closed (w_srv w) then Goes w false
      else Goes (upd_srv (fun s => s <| s_closed := true |>) w) true
  | OSClosedReset => Goes (upd_srv (fun s => s <| s_closed := false |>) w) tt
  | OSConnSend c =>
      match s_connbuf (w_srv w) with
      | [] => Goes (upd_srv (fun s => s <| s_connbuf := [c] |>) w) tt
      | _ => Blocked
      end
  | OSDiscSend c => Goes (upd_srv (fun s => s <| s_disc ::= fun l => l ++ [c] |>) w) tt
  | OActSend f sync =>
      let k := S (s_actsent (w_srv w)) in
      Goes (upd_srv (fun s => s <| s_acts ::= fun l => l ++ [Act f sync k] |> <| s_actsent := k |>) w) k
  | OActAccepted k => if k <=? s_actaccepted (w_srv w) then Goes w tt else Blocked
  | OActWait k => if bool_decide (k ∈ s_actdone (w_srv w)) then Goes w tt else Blocked
  | OActDone k => Goes (upd_srv (fun s => s <| s_actdone ::= fun d => {[k]} ∪ d |>) w) tt
  | OBcSend msgs =>
      let k := S (s_bcsent (w_srv w)) in
      Goes (upd_srv (fun s => s <| s_bcast ::= fun l => l ++ [msgs] |> <| s_bcsent := k |>) w) k
  | OBcAccepted k => if k <=? s_bcaccepted (w_srv w) then Goes w tt else Blocked
  | OSrvSelect =>
      match pick w (srv_ready (w_srv w)) with
      | None => Blocked
      | Some x => Goes (upd_srv (srv_take x) (pop_seed w)) x
      end
  | OSAdd c => Goes (upd_srv (fun s => s <| s_conns ::= fun d => {[c]} ∪ d |>) w) tt
  | OSMem c => Goes w (bool_decide (c ∈ s_conns (w_srv w)))
  | OSDel c => Goes (upd_srv (fun s => s <| s_conns ::= fun d => d ∖ {[c]} |>) w) tt
  | OSCountAdd z => Goes (upd_srv (fun s => s <| s_count ::= fun n => (n + z)%Z |>) w) tt
  | OSCount => Goes w (s_count (w_srv w))
  | OSRange => Goes (pop_seed w) (permute (seed w) (elements (s_conns (w_srv w))))
  | OBLock => match b_mu (w_srv w) with
              | None => Goes (upd_srv (fun s => s <| b_mu := Some t |>) w) tt
              | Some _ => Blocked
              end
  | OBUnlock => match b_mu (w_srv w) with
                | Some t' => if Nat.eqb t t' then Goes (upd_srv (fun s => s <| b_mu := None |>) w) tt
                             else Panics "sync: unlock of unlocked mutex"
                | None => Panics "sync: unlock of unlocked mutex"
                end
  | OBSet msgs => Goes (upd_srv (fun s => s <| b_msgs := msgs |>) w <| w_log ::= cons (LBcast msgs) |>) tt
  | OBGet => Goes w (b_msgs (w_srv w))
  | OBSwap => Goes (upd_srv (fun s => s <| b_gen ::= S |>) w) (b_gen (w_srv w))
  | OBClose g =>
      if bool_decide (g ∈ b_closed (w_srv w)) then Panics "close of closed channel"
      else Goes (upd_srv (fun s => s <| b_closed ::= fun d => {[g]} ∪ d |>) w) tt
  | OBAwaiter => Goes w (b_gen (w_srv w))
  | OBSelect g c =>
      let ready := (if bool_decide (g ∈ b_closed (w_srv w)) then [true] else []) ++
                   (if c_closeCh (conn_of w c) then [false] else []) in
      match pick w ready with Some b => Goes (pop_seed w) b | None => Blocked end
  | ONewConn c id native_only =>
      match w_conns w !! c with
      | Some _ => Blocked   (* the environment only uses fresh addresses *)
      | None =>
          if native_only then
            let n := NsRef c "" (w_next w) in
            Goes (w <| w_nss ::= <[w_next w := nsobj0 n]> |> <| w_next ::= S |>
                    <| w_conns ::= <[c := conn0 <| c_id := id |> <| c_nss := {["" := n]} |> <| c_acked := true |>
                                            <| c_wait ::= fun x => x <| w_ready := true |> |>]> |>) tt
          else Goes (w <| w_conns ::= <[c := conn0 <| c_id := id |>]> |>) tt
      end
  | ONow => Goes w (w_now w)
  | OSleep => Goes w tt
  | OSpawn code => Goes (w <| w_spawn ::= fun l => l ++ [code] |>) tt
  | OLog e => Goes (w <| w_log ::= cons e |>) tt
  end.

(** ** Programs *)

(** Calls of the exported API, made by application code. *)
Inductive sender : Type :=     (* the first argument of Server.Broadcast *)
| SendConn (c : cid)           (* a *Conn *)
| SendNS (n : nsref)           (* a *NSConn *)
| SendRoom (n : nsref)         (* a *Room: String() is the ID of its connection *)
| SendExclude (s : string).    (* Exclude(s) or another Stringer *)

Inductive api : Type :=
| AConnect (c : cid) (x : ctxref) (ns : string)
| AConnectLoop (c : cid) (x : ctxref) (ns : string) (t : Z)
| AWaitConnect (c : cid) (x : ctxref) (ns : string) (cur : option nsref)
| ANamespace (c : cid) (ns : string)
| ADisconnectAll (c : cid) (x : ctxref)
| AWrite (c : cid) (m : message)
| AAsk (c : cid) (x : ctxref) (m : message)
| AClose (c : cid)
| AIsClosed (c : cid)
| AGetID (c : cid)
| ASet (c : cid) (k : string) (v : sval)
| AGet (c : cid) (k : string)
| AIncrement (c : cid) (k : string)
| ADecrement (c : cid) (k : string)
| AHandlePayload (c : cid) (typ : mtype) (b : string)
| AEmit (n : option nsref) (event body : string)
| AEmitBinary (n : option nsref) (event body : string)
| ANSAsk (n : option nsref) (x : ctxref) (event body : string)
| AJoinRoom (n : option nsref) (x : ctxref) (room : string)
| ARoom (n : option nsref) (room : string)
| ARooms (n : option nsref)
| ALeaveAll (n : option nsref) (x : ctxref)
| ADisconnect (n : option nsref) (x : ctxref)
| ARoomEmit (n : nsref) (room event body : string)
| ARoomLeave (n : nsref) (room : string) (x : ctxref)
| ANSBroadcast (n : option nsref) (others : bool) (msgs : list message)
| ABroadcast (except : option sender) (msgs : list message)
| AServerAsk (x : ctxref) (m : message)
| ADo (k : nat) (async : bool)
| AServerClose
| ATotal
| AGetConnections
| AGetConnectionsByNamespace (ns : string).

Definition ares (a : api) : Type :=
  match a with
  | AConnect _ _ _ | AConnectLoop _ _ _ _ | AWaitConnect _ _ _ _ => (option nsref * option gerr)%type
  | ANamespace _ _ => option nsref
  | ADisconnectAll _ _ => option gerr
  | AWrite _ _ => bool
  | AAsk _ _ _ => (message * option gerr)%type
  | AIsClosed _ => bool
  | AGetID _ => string
  | AGet _ _ => option sval
  | AIncrement _ _ | ADecrement _ _ => Z
  | AHandlePayload _ _ _ => option gerr
  | AEmit _ _ _ | AEmitBinary _ _ _ => bool
  | ANSAsk _ _ _ _ => (message * option gerr)%type
  | AJoinRoom _ _ _ => (option (nsref * string) * option gerr)%type
  | ARoom _ _ => option (nsref * string)
  | ARooms _ => list (nsref * string)
  | ALeaveAll _ _ | ADisconnect _ _ => option gerr
  | ARoomEmit _ _ _ _ => bool
  | ARoomLeave _ _ _ => option gerr
  | AServerAsk _ _ => (message * option gerr)%type
  | ATotal => Z
  | AGetConnections => gmap string cid
  | AGetConnectionsByNamespace _ => gmap string nsref
  | _ => unit
  end.

(** A program that returns an [A].  [Crash] is an explicit Go panic. *)
Inductive prog (A : Type) : Type :=
| Ret (a : A)
| Do (o : op) (k : res o -> prog A)
| Call (a : api) (k : ares a -> prog A)
| Crash (why : string).
Arguments Ret {A} a.
Arguments Do {A} o k.
Arguments Call {A} a k.
Arguments Crash {A} why.

Fixpoint bind {A B} (p : prog A) (f : A -> prog B) : prog B :=
  match p with
  | Ret a => f a
  | Do o k => Do o (fun r => bind (k r) f)
  | Call a k => Call a (fun r => bind (k r) f)
  | Crash why => Crash why
  end.

Definition opr (o : op) : prog (res o) := Do o Ret.

Declare Scope prog_scope.
Delimit Scope prog_scope with prog.
Bind Scope prog_scope with prog.
Notation "'let!' x := p 'in' q" := (bind p (fun x => q))
  (at level 200, x pattern, p at level 100, q at level 200, right associativity,
   format "'[v' 'let!'  x  :=  p  'in' '//' q ']'") : prog_scope.
Notation "p ;;; q" := (bind p (fun _ => q)) (at level 100, q at level 200, right associativity,
   format "'[v' p ;;; '//' q ']'") : prog_scope.

(** [for _, x := range l { body }] with early exit: the body returns
    [Some r] to return [r] from the function. *)
Fixpoint for_each {A R} (l : list A) (body : A -> prog (option R)) : prog (option R) :=
  match l with
  | [] => Ret None
  | x :: l' => bind (body x) (fun r => match r with Some v => Ret (Some v) | None => for_each l' body end)
  end.

(** The same without early exit. *)
Fixpoint for_all {A} (l : list A) (body : A -> prog unit) : prog unit :=
  match l with
  | [] => Ret tt
  | x :: l' => bind (body x) (fun _ => for_all l' body)
  end.
