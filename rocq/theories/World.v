(** * World.v : the shared state of a neffos process.

    One [world] holds every heap object that goroutines share: connections
    (server side and client side), NSConn values, processes, channels, contexts
    and the server.  Short critical sections that contain no blocking call are
    single atomic operations (see Lang.v); the two mutexes that are held while
    callbacks or network calls run (connectedNamespacesMutex, roomsMutex) and
    the broadcaster mutex are explicit. *)
From Coq Require Import ZArith.
From stdpp Require Import gmap strings list.
From RecordUpdate Require Import RecordUpdate.
From Verif Require Import Go Errors Message.

Definition cid := nat.    (* address of a Conn *)
Definition tid := nat.    (* goroutine *)
Definition chid := nat.   (* address of a chan Message *)
Definition pid := nat.    (* address of a process *)

(** A *NSConn: address plus its two immutable fields (conn_namespace.go:13-31). *)
Record nsref : Type := NsRef { n_conn : cid; n_name : string; n_id : nat }.

(** Mutable part of a NSConn: the joined rooms and their mutex.  A *Room is
    determined by its NSConn and name (conn_room.go:10-21). *)
Record rwlock : Type := RW { rw_writer : option tid; rw_readers : list tid }.
#[export] Instance etaRW : Settable _ := settable! RW <rw_writer; rw_readers>.
Definition rw0 : rwlock := RW None [].

Record nsobj : Type := NsObj { o_ref : nsref; o_rooms : gset string; o_mu : rwlock }.
#[export] Instance etaNsObj : Settable _ := settable! NsObj <o_ref; o_rooms; o_mu>.
Definition nsobj0 (n : nsref) : nsobj := NsObj n ∅ rw0.

(** A value in Conn.store: an int or anything else. *)
Inductive sval : Type := SInt (z : Z) | SOther (k : nat).

(** waiter_once.go:16-22 *)
Record waiter : Type := Waiter {
  w_locked : bool; w_ready : bool; w_err : option gerr; w_chclosed : bool }.
#[export] Instance etaWaiter : Settable _ := settable! Waiter <w_locked; w_ready; w_err; w_chclosed>.
Definition waiter0 : waiter := Waiter false false None false.

(** conn.go:43-103 Conn, mutable fields.  [c_in], [c_inend], [c_out],
    [c_wfail], [c_sockclosed] model the socket: frames that arrived and were not read yet, the read
    error after them, frames written, a write error, closed locally.  [c_got] is
    history: all the frames that ever arrived, which no operation looks at. *)
Record conn : Type := Conn {
  c_id : string;
  c_acked : bool;
  c_inside : bool;
  c_closed : bool;
  c_closeCh : bool;
  c_wait : waiter;
  c_nss : gmap string nsref;
  c_nsmu : rwlock;
  c_procs : gmap string pid;
  c_waiting : gmap string chid;
  c_qtext : list string;
  c_qbin : list string;
  c_store : gmap string sval;
  c_in : list (mtype * string);
  c_inend : option gerr;
  c_out : list (mtype * string);
  c_wfail : option gerr;
  c_sockclosed : bool;
  c_got : list (mtype * string) }.
#[export] Instance etaConn : Settable _ := settable! Conn <c_id; c_acked; c_inside; c_closed; c_closeCh;
  c_wait; c_nss; c_nsmu; c_procs; c_waiting; c_qtext; c_qbin; c_store; c_in; c_inend; c_out; c_wfail; c_sockclosed; c_got>.
Definition conn0 : conn :=
  Conn "" false false false false waiter0 ∅ rw0 ∅ ∅ [] [] ∅ [] None [] None false [].

(** process.go:41-46 process: the done flag and the sync.WaitGroup (counter,
    number of blocked Wait calls, and how often the blocked ones were released).  Signal,
    Finished and isDone (process.go:48-61, 85-88) are not used by any code. *)
Record proc : Type := Proc { p_done : bool; p_count : nat; p_waiters : nat; p_gen : nat }.
#[export] Instance etaProc : Settable _ := settable! Proc <p_done; p_count; p_waiters; p_gen>.
Definition proc0 : proc := Proc false 0 0 0.

(** A chan Message.  Capacity 0: a sender puts its message in [ch_buf] and is
    blocked until [ch_taken] reaches its ticket. *)
Record chan : Type := Chan { ch_cap : nat; ch_buf : list message; ch_sent : nat; ch_taken : nat }.
#[export] Instance etaChan : Settable _ := settable! Chan <ch_cap; ch_buf; ch_sent; ch_taken>.
Definition chan0 (cap : nat) : chan := Chan cap [] 0 0.

(** A context: its error once done, and its deadline. *)
Record ctxt : Type := Ctxt { x_done : option gerr; x_deadline : option Z }.
#[export] Instance etaCtxt : Settable _ := settable! Ctxt <x_done; x_deadline>.
Definition ctxt0 : ctxt := Ctxt None None.
(** [None] is the nil context (context.TODO()). *)
Definition ctxref := option nat.

(** server.go:412-415 action: the function is a callback of the application or Conn.Close (server.go:212) *)
Inductive actfn : Type := ActUser (k : nat) | ActClose.
Record act : Type := Act { a_fn : actfn; a_sync : bool; a_ticket : nat }.

(** server.go:45-104 Server, mutable fields.  [s_connbuf] is the channel of
    capacity one; [s_disc], [s_acts], [s_bcast] list what blocked senders
    offer on the unbuffered channels; tickets identify a sender. *)
Record server : Type := Server {
  s_conns : gset cid;
  s_count : Z;
  s_closed : bool;
  s_waiting : gmap string chid;
  s_connbuf : list cid;
  s_disc : list cid;
  s_acts : list act;
  s_actsent : nat;
  s_actaccepted : nat;
  s_actdone : gset nat;
  s_bcast : list (list message);
  s_bcsent : nat;
  s_bcaccepted : nat;
  b_msgs : list message;
  b_mu : option tid;
  b_gen : nat;
  b_closed : gset nat }.
#[export] Instance etaServer : Settable _ := settable! Server <s_conns; s_count; s_closed; s_waiting; s_connbuf;
  s_disc; s_acts; s_actsent; s_actaccepted; s_actdone; s_bcast; s_bcsent; s_bcaccepted; b_msgs; b_mu; b_gen; b_closed>.
Definition server0 : server :=
  Server ∅ 0 false ∅ [] [] [] 0 0 ∅ [] 0 0 [] None 0 ∅.

(** Programs of goroutines started with [go], by name. *)
Inductive tcode : Type :=
| TUser (k : nat)                (* application goroutine number k *)
| TReader (c : cid)              (* conn.go:316 startReader *)
| TReaderLoop (c : cid)          (* its loop body, conn.go:324-345 *)
| TReadNext (c : cid) (ch : chid) (* conn.go:968-976 *)
| TDisconnect (c : cid)          (* conn.go:1032-1034 *)
| TServer                        (* server.go:167 start *)
| TServerLoop                    (* its loop body, server.go:170-206 *)
| TUpgrade (c : cid)             (* server.go:279 Upgrade of a GET request, called by net/http *)
| TWaitMessages (c : cid)        (* server.go:339-342 *)
| TDial (c : cid).               (* client.go:69 Dial, called by the application *)

(** Observable events, recorded in order in [w_log] (newest first). *)
Inductive xcall : Type :=
| XSubscribe (c : cid) (ns : string)
| XUnsubscribe (c : cid) (ns : string)
| XOnConnect (c : cid)
| XOnDisconnect (c : cid)
| XPublish (msgs : list message)
| XAsk (m : message) (token : string)
| XNotifyAsk (m : message) (token : string).

(** What the server loop may receive (server.go:171-205). *)
Inductive srvmsg : Type :=
| SConnect (c : cid) | SDisconnect (c : cid) | SBroadcast (msgs : list message) | SAction (a : act).

Inductive event : Type :=
| LFire (n : nsref) (key : string) (m : message) (* the callback registered for [key] runs with [m] *)
| LOnConnect (c : cid)
| LOnDisconnect (c : cid)
| LDo (k : nat) (c : cid)                        (* callback [k] passed to Server.Do runs for [c] *)
| LAsk (c : cid) (token : string)                (* Conn.ask generated a token *)
| LAskReply (c : cid) (token : string) (m : message) (next : bool) (* ... and returns this reply *)
| LServerReply (token : string) (m : message)    (* Server.Ask returns this reply *)
| LAcked (c : cid)                               (* the handshake of [c] succeeds on this side *)
| LSrv (x : srvmsg)                              (* the server loop received [x] *)
| LBcast (msgs : list message)                   (* the asynchronous broadcaster's batch is replaced *)
| LBatch (c : cid) (msgs : list message)         (* a broadcast batch is published to [c] *)
| LDial (c : cid) (err : option gerr) (id : string) (* Dial returned *)
| LUpgraded (c : cid) (err : option gerr)        (* Upgrade returned *)
| LExch (x : xcall).

Record world : Type := World {
  w_conns : gmap cid conn;
  w_nss : gmap nat nsobj;
  w_procs : gmap pid proc;
  w_chans : gmap chid chan;
  w_ctxs : gmap nat ctxt;
  w_srv : server;
  w_now : Z;
  w_next : nat;            (* next fresh address *)
  w_seeds : list nat;      (* resolves map iteration order and select *)
  w_spawn : list tcode;    (* goroutines started but not yet scheduled *)
  w_log : list event }.
#[export] Instance etaWorld : Settable _ := settable! World <w_conns; w_nss; w_procs; w_chans; w_ctxs; w_srv; w_now;
  w_next; w_seeds; w_spawn; w_log>.
Definition world0 : world := World ∅ ∅ ∅ ∅ ∅ server0 0 1 [] [] [].

Definition conn_of (w : world) (c : cid) : conn := default conn0 (w_conns w !! c).
Definition ns_of (w : world) (n : nsref) : nsobj := default (nsobj0 n) (w_nss w !! n_id n).
Definition chan_of (w : world) (ch : chid) : chan := default (chan0 0) (w_chans w !! ch).
Definition proc_of (w : world) (p : pid) : proc := default proc0 (w_procs w !! p).

Definition upd_conn (c : cid) (f : conn -> conn) (w : world) : world :=
  w <| w_conns ::= <[c := f (conn_of w c)]> |>.
Definition upd_ns (n : nsref) (f : nsobj -> nsobj) (w : world) : world :=
  w <| w_nss ::= <[n_id n := f (ns_of w n)]> |>.
Definition upd_chan (ch : chid) (f : chan -> chan) (w : world) : world :=
  w <| w_chans ::= <[ch := f (chan_of w ch)]> |>.
Definition upd_proc (p : pid) (f : proc -> proc) (w : world) : world :=
  w <| w_procs ::= <[p := f (proc_of w p)]> |>.
Definition upd_srv (f : server -> server) (w : world) : world := w <| w_srv ::= f |>.

(** The iteration order of a Go map is arbitrary: [permute k] runs through
    all orders as [k] varies. *)
Fixpoint insert_at {A} (k : nat) (x : A) (l : list A) : list A :=
  match k, l with
  | S k', y :: l' => y :: insert_at k' x l'
  | _, _ => x :: l
  end.
Fixpoint permute {A} (k : nat) (l : list A) : list A :=
  match l with
  | [] => []
  | x :: l' => insert_at (k mod S (length l')) x (permute (k / S (length l')) l')
  end.

Definition seed (w : world) : nat := hd 0 (w_seeds w).
Definition pop_seed (w : world) : world := w <| w_seeds ::= @tl nat |>.

(** Read-write mutexes.  (Go's writer preference is not modelled: it only adds
    blocking.) *)
Fixpoint remove1 (t : tid) (l : list tid) : list tid :=
  match l with
  | [] => []
  | x :: l' => if Nat.eqb x t then l' else x :: remove1 t l'
  end.
Definition rw_can_lock (l : rwlock) : bool :=
  match rw_writer l, rw_readers l with None, [] => true | _, _ => false end.
Definition rw_can_rlock (l : rwlock) : bool :=
  match rw_writer l with None => true | _ => false end.
Definition rw_holds (t : tid) (l : rwlock) : bool :=
  match rw_writer l with Some t' => Nat.eqb t t' | None => false end.
Definition rw_reads (t : tid) (l : rwlock) : bool := existsb (Nat.eqb t) (rw_readers l).
