C01 | Message.v `serializeMessage`, `DeserializeMessage`; Go.v string functions | induction on strings, splitting/joining lemmas (CodecProofs, WireProofs)
C02 | Message.v `escape`, `unescape` | exact (iff) characterisation by analysing the greedy replacement
C03 | Message.v | splitting lemma: the number and position of the separators is fixed by the serializer
C04 | Message.v `serializeOutput`, Errors.v `resolveError`, registered errors | case analysis, induction over the list of registered errors
C05 | Message.v `DeserializeMessage` | totality by construction, iff by case analysis on the split
C06 | Message.v native branch | case analysis, counting separators
C07 | Message.v `serializeMessage` | case analysis
C08 | Message.v `genWait`, `genWaitConfirmation` | injectivity of the decimal printer, prefix analysis
C09 | Message.v `genWaitStackExchange` | case analysis; the code violates it
C10 | Message.v `genEmptyReplyToWait` and the decoder | computation with symbolic token
C11 | Handlers.v (maps as heap objects) | induction over the list of handlers with a heap invariant (HandlerProofs)
C12 | Code.v `fireEvent`, `handleMessage` | symbolic execution; all-schedules history invariant for the "only connected" part (FireProofs)
C13 | Reflect.v `makeEventsFromStruct` | induction over the methods
C14 | Reflect.v `call`, `history` | history induction over the heap of controllers
C15 | Code.v `replyConnect` | symbolic execution for every world and every callback (SeqProofs, ConnProofs)
C16 | Code.v `replyDisconnect` | symbolic execution, induction over rooms
C17 | Code.v `replyRoomJoin`, `replyRoomLeave` | symbolic execution
C18 | Code.v `Write`, `canWrite` | symbolic execution, iff
C19 | Code.v `HandlePayload` over a list of payloads | refinement to a membership automaton (Spec_Conn), induction
C20 | Code.v `tryNamespace` | symbolic execution; the code violates it
C21 | Code.v `Close` | symbolic execution, induction over namespaces and rooms
C22 | Code.v `askConnect`, `askDisconnect`, `askRoomJoin`, `askRoomLeave` and the public calls | symbolic execution with an answering peer (Spec_View)
C23 | Code.v `ask`, `handleMessage`, `ServerAsk` | all-schedules invariant (ReplyProofs)
C24 | Code.v `ask`, `ServerAsk` | symbolic execution; symbolic counterexamples
C25 | Code.v `ask` | symbolic execution; blocking for every continuation (StuckProofs)
C26 | Code.v `ask` with isInsideHandler, `read_next` | symbolic execution; the code violates it
C27 | Code.v `send` on channels of capacity 1 and 0 | symbolic execution; blocking for every continuation
C28 | Code.v `handleMessage`, `ask` | all-schedules invariant on the tokens
C29 | Code.v `sendClientACK`, `handleACK`, `Upgrade`, `Dial`, `wait`, `unwait` | sequential composition of the two sides; schedules for the violations; for every schedule an invariant of the gate (Dial.v): it is opened without an error only after the handshake, and the lock that lets a second waiter through is taken twice only after a frame "M"
C30 | Code.v `reader_step`, `handleQueue` | all-schedules invariant (Ready), induction over the queue
C31 | Code.v `wait`, `unwait` | all-schedules invariant (Gate); blocking for every continuation
C32 | Code.v `proc_*` | blocking and release run step by step (HoldProofs), every-schedule invariant of the sleeping reader; schedule + blocking for every continuation for the violated part
C33 | Code.v `broadcast`, `waitMessages` | all-schedules invariant (Async)
C34 | Code.v `server_step` | all-schedules invariant (Loop): rounds of the loop
C35 | Code.v `publishMessages` | symbolic execution, induction over the batch
C36 | Code.v `Broadcast`, `exclusion`, `canWrite` | symbolic execution
C37 | Code.v `server_step`, `Upgrade`, `Close` | all-schedules invariant (Loop); a schedule for the leak
C38 | Code.v `ServerClose`, `server_step`, `Upgrade` | all-schedules invariant (Loop); schedules for the violations
C39 | Code.v `Connect`, `Connect_loop` | all-schedules invariant, induction over iterations
C40 | Store.v, Code.v `add_counter`, `impl` | induction over operations and schedules; the calls in the running process are those of Store.v (C40_process), and an invariant over all schedules (Shelf.v) that only the application puts anything into a store (C40_only_put)
C41 | Http.v `tryParseURLParamsToHeaders` | induction over the query, for every order of enumeration
C42 | Http.v `upgrade_prologue` | case analysis
C43 | Exchange.v combination | induction over the tree of exchanges
C44 | Exchange.v redis and nats routing | induction over the history of calls; matching lemmas for globs and subjects
C45 | whole concurrent layer | all-schedules invariant: no operation of any goroutine can panic (SafeRules, SafeCode, SafeOps, SafeProofs)
C46 | Code.v `DisconnectAll`, `LeaveAll` | self-deadlock proved for every continuation (LockProofs); deadlock with the reader by an invariant over all later schedules (Hung, HungProofs); termination from the C62 conversation theorems
C47 | Code.v `forceLeaveAll` | self-deadlock proved for every continuation
C48 | Code.v `askConnect`, `replyConnect` | symbolic execution of overlapping requests; a schedule of two goroutines
C49 | two connections linked by frame queues | composition of the sequential theorems with the wire theorems (E2EProofs)
C50 | two connections linked by frame queues | the same
C51 | Errors.v, Code.v `write`, `reader_step` | case analysis
C52 | Socket.v | induction over the frames
C53 | Http.v `ReconnectTries`, `Atoi` | induction over digits
C55 | Code.v `DoAct`, `server_step` | all-schedules invariant (Loop)
C54 | Code.v `Ask`, `tryNamespace`, `proc_Wait` | invariant over all continuations in which two goroutines hold what the other waits for (Frozen, Cross)
C56 | Code.v `reader_step`, `handleACK`, `handleQueue`, `handleMessage`; Lang.v `c_got` | all-schedules invariant: what was handled, then what the reader holds, the queue and the unread frames, is a subsequence of what arrived (Order, Shake)
C57 | Code.v `askConnect`, `replyConnect`, `askRoomJoin`, `replyRoomJoin`, `newConn` | all-schedules invariant (Frame, Admit)
C58 | Code.v `Emit`, `RoomEmit`, `NSAsk`, `Write`, `HandlePayload`; Message.v | composition of the codec theorems, C18 and the reference machine (ApiProofs)
C59 | Code.v `Namespace`, `Room`, `Rooms`, `collect_conns`, `collect_nss` | symbolic runs, induction over the connections (ApiProofs)
C60 | Code.v `WaitConnect` | symbolic run of one look; a look that ends neither way calls itself (ApiProofs)
C61 | Code.v `handleACK`, `newConn`, `Upgrade`, `Dial` | invariants over all schedules: Shake.v (fixed), Ident.v (origin)
C62 | Code.v `LeaveAll`, `DisconnectAll`, `askRoomLeave`, `askDisconnect` | refinement: with any replies the call does what a reference loop over plain sets does (Spec_All.v); induction over the rooms and namespaces (AllProofs)
C63 | Code.v `code` (TReader, TReaderLoop), `sendClientACK`, `Dial`, `Close` | ghost state "reads c" and "knows that c is closed" of every goroutine; any program at all only adds knowledge; Frame.v for the log of Dial (End.v)
C64 | Code.v `impl` (nil NSConn), `Broadcast`, `Disconnect`, `handleMessage` | symbolic execution for the calls that are safe; runs that end in a panic for Rooms, Broadcast and a native-only Disconnect (CarelessProofs)
C65 | Code.v `server_step`, `DoAct`, `Broadcast`, `ServerAsk`, `ServerClose` | violated: the invariant of the server loop (Loop.v) shows that only goroutine 0 takes up anything; a program that must wait for it before it returns never gets on (BusyProofs)
C66 | Code.v `Close`, `replyConnect`, `replyDisconnect`, `askDisconnect` | that it comes only after an admission: the invariant of C57 (Admit.v); the rest is violated: two runs that end with nothing left to do (PairProofs); what holds when nothing overlaps is C21
C67 | Code.v `server_step`, `Close`, `code` (TDisconnect) | invariant over all schedules: whoever sends, takes up or acts on a disconnection knows that the connection is closed (Gone.v, an instance of Frame.v); the delivering goroutine as the reader of C63; with the registry of C37 and the rounds of C34 and C55 (GoneProofs)
C68 | Code.v `canWrite`, `Write`, `write` and all their callers | the invariant of C57 (Admit.v) extended to what is written: whoever writes to a socket knows that the namespace was found connected and the room joined (FrameW.v, Admit.v)
C69 | Code.v `reader_step`, `read_next`, `waitMessages`, `Close` | no step of the ending goroutine can block once the socket and the channel are closed, which is stable under every step of the others (QuitProofs); for the goroutine of an Ask inside a callback C26_ends_partial
C70 | Code.v `broadcast`, `waitMessages`, `publish`, `Broadcast`, `Close` | refuted: the goroutine waits for the lock that it holds (JamProofs); invariant over all schedules that batches are taken over and offered only under that lock (Jam.v), so nothing is broadcast any more; positive part by running the call
C71 | Code.v `handle_event`, `fireEvent` | refuted: corollary of C12_dispatch, whose events include the three, and a run (ForgeProofs)
C72 | Code.v `Ask`, `ask`, `read_next`, `reader_step` | refuted by a run (MixProofs); in general by C26_refuted
C73 | Naming.v `getTimeouts`, `join`, `arm` | case analysis over handlers, induction over the list of reads (NamingProofs)
C74 | Naming.v `resolveStructNamespace`, `FieldByName` | induction over depth and fields; the search by levels finds what the inductive specification `has_field` says (NamingProofs)
C75 | Code.v `reader_step`, `handleMessage`, `Write`, `Ask`, `askRoomJoin` with `onlyNative` | execution of the goroutine from any undisturbed state; induction over the list of frames (NativeProofs)
C76 | Code.v `ask`, Message.v `genWait` | symbolic execution from any undisturbed state; a run that shows the effect (SameProofs)
C77 | Code.v `handleACK`, `handleQueue`, `reader_step`, `Ask` | the code violates it: an invariant of all other goroutines shows that the channel stays empty (Self.v, SelfProofs); two runs
C78 | Code.v `reader_step`, `handleACK` | induction over the frames (as for C30); symbolic execution of one round of the reader, with C21 for Close (LetterProofs)
C79 | Reflect.v `isZero`, `nonzero`, `makeEventsFromStruct` | structural induction over values nested to any depth (ZeroProofs)
C80 | Code.v `server_step`, `Upgrade` with the exchange | symbolic execution of one iteration of the server loop; a run (ExitProofs)
C81 | Slice.v `BroadcastSlice` (Broadcast with the caller's slice) | equality of programs for every continuation, and C35 for the messages that result (SliceProofs)
