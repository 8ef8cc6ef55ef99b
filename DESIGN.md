# Formal model of kataras/neffos in Rocq

## 1. Approach

The Go code in /repo is modelled function by function in Gallina, in two layers.

1. **Pure layer**: total computable functions on byte strings, maps and records.
   `Go.v` (strings and strconv), `Errors.v` (error values and their texts), `Message.v` (the wire format),
   `Handlers.v` (handler maps as heap objects), `Reflect.v` and `Naming.v` (struct handlers, timeouts), `Store.v` (the store of a
   connection and concurrent counters), `Http.v` (what Upgrade decides, query to headers),
   `Socket.v` (reading frames), `Exchange.v` (combining stack exchanges, redis and nats routing).
2. **Concurrent layer**: `World.v` (every object that goroutines share), `Lang.v` (a small Go-like language),
   `Code.v` (every method that touches shared state, as a program of that language), `Sem.v` (executions).
   A program is a tree `Ret a | Do o k | Call a k | Crash why` whose nodes are atomic operations (lock, map
   access, atomic load/CAS, channel operation, socket operation, ...) and calls of the exported API made by
   application code.  `ostep` gives each operation its effect on the shared `world`: `Goes w' r`, `Blocked`
   or `Panics`.  From it we derive
   * a *sequential* interpreter `exec` (one goroutine, nobody interferes), used for exact functional
     specifications of one call in every world and for every callback, and
   * an *interleaving* semantics `step` (any number of goroutines, any schedule, environment actions for
     network, clock, contexts, map iteration order and `select`), used for invariants (`reachable`) and for
     counterexample schedules.

Kinds of files: model files contain definitions only.  `Spec_*.v` hold the small specifications that theorem
statements use.  Proof files hold lemmas.  `Prop_*.v` hold the property theorems and nothing else: every
statement is closed by `exact` a lemma, followed by `Print Assumptions`, and by an `Example` in which a
concrete, non-trivial case meets the hypotheses.  The `Prop_*.v` files are generated from marks in the proof
files by `tools/genprops.py`; `tools/build.sh` regenerates everything and builds.

If the code violates a property, the model proves the violation: a theorem `..._refuted`, if possible not
for one literal but for every state of a described kind ("in every such state the call blocks for ever, in
every continuation").  What does hold of such a property is proved in theorems with the suffix `_partial`,
and the note in MANIFEST.json says what is missing.

## 2. Proof techniques for executions

* `Logic.v`: a rely-guarantee style program logic.  A specification `lspec` gives each goroutine a local
  ghost state, each operation a rule, each API call a pre- and postcondition.  `ok` is proved by structural
  recursion on programs; `reachable_holds` turns "every goroutine is ok and the invariant holds" into an
  invariant of all reachable states.
* `Frame.v`: a light version for invariants that only a few operations touch.  `Gate.v`, `Ready.v`, `Loop.v`,
  `Async.v` are instances.  `FrameW.v` is the same for invariants about what is written to sockets (`Admit.v`).
* `FireProofs.v`: invariants that every operation preserves, for arbitrary programs.
* `Inert.v`, `StuckProofs.v`, `LockProofs.v`: "blocked for ever".  An invariant of all continuations says that nobody can
  release the goroutine, whatever the other goroutines and the environment do.
* `Frozen.v`, `Cross.v`, `Hung.v`: the same for two goroutines that wait for each other; `Self.v`: for one that waits for what only it can read.
* `Shake.v`: the handshake of one connection (done at most once while it is open).
* `Order.v`: the frames of one connection, from their arrival (`c_got`, a history the program does not read) over the queue and the reader to the callbacks.
* `SeqProofs.v`, `ConnProofs.v`, `LocalProofs.v`, `CloseProofs.v`: symbolic execution with `exec`.
* `E2EProofs.v`: two connections in one world, linked by copying the frames that one wrote to the input of
  the other.

## 3. The properties

<!-- table -->
| id | property | modelled by | proved how | status | theorems |
|---|---|---|---|---|---|
| C01 | Wire round trip of a message | Message.v `serializeMessage`, `DeserializeMessage`; Go.v string functions | induction on strings, splitting/joining lemmas (CodecProofs, WireProofs) | proved | Prop_Wire.v: C01_wire_round_trip |
| C02 | Exactly which names survive the wire | Message.v `escape`, `unescape` | exact (iff) characterisation by analysing the greedy replacement | proved | Prop_Wire.v: C02_name_survives_iff, C02_wire_names_iff, C02_replacement_text_not_enough_refuted |
| C03 | Names cannot inject fields | Message.v | splitting lemma: the number and position of the separators is fixed by the serializer | proved | Prop_Wire.v: C03_no_field_injection |
| C04 | Errors and replies on the wire | Message.v `serializeOutput`, Errors.v `resolveError`, registered errors | case analysis, induction over the list of registered errors | proved | Prop_Wire.v: C04_reply, C04_error, C04_resolution_is_a_function, C04_registered_error_identity, C04_registration_appends, C04_empty_error_text_is_lost |
| C05 | Decoding is total and rejects exactly the malformed payloads | Message.v `DeserializeMessage` | totality by construction, iff by case analysis on the split | proved | Prop_Wire.v: C05_invalid_iff, C05_fields |
| C06 | Native messages round trip | Message.v native branch | case analysis, counting separators | proved | Prop_Wire.v: C06_native_round_trip_iff |
| C07 | When serialization panics | Message.v `serializeMessage` | case analysis | proved | Prop_Wire.v: C07_serialize_panics_iff |
| C08 | Wait tokens | Message.v `genWait`, `genWaitConfirmation` | injectivity of the decimal printer, prefix analysis | proved | Prop_Wire.v: C08_sides_disjoint, C08_injective, C08_survives_wire, C08_recognition |
| C09 | Scale-out ask token is recognised on the way back | Message.v `genWaitStackExchange` | case analysis; the code violates it | partial | Prop_Wire.v: C09_token_never_recognised_refuted |
| C10 | Empty replies mean success | Message.v `genEmptyReplyToWait` and the decoder | computation with symbolic token | proved | Prop_Wire.v: C10_empty_reply, C10_empty_reply_generated |
| C11 | Joining handlers | Handlers.v (maps as heap objects) | induction over the list of handlers with a heap invariant (HandlerProofs) | proved | Prop_Handlers.v: C11_join_handlers, C11_on, C11_events_on |
| C12 | Event dispatch | Code.v `fireEvent`, `handleMessage` | symbolic execution; all-schedules history invariant for the "only connected" part (FireProofs) | proved | Prop_Fire.v: C12_which, C12_dispatch, C12_unconnected |
| C13 | Struct handlers: event names | Reflect.v `makeEventsFromStruct` | induction over the methods | proved | Prop_Reflect.v: C13_static, C13_dynamic, C13_matchers, C13_special_events_not_mapped, C13_runs |
| C14 | Struct handlers: one controller per connection | Reflect.v `call`, `history` | history induction over the heap of controllers | proved | Prop_Reflect.v: C14_new_controller, C14_same_fields, C14_isolation, C14_no_panic, C14_unexported_field_refuted, C14_registered_nsconn_refuted, C14_connect |
| C15 | Namespace admission by the remote side | Code.v `replyConnect` | symbolic execution for every world and every callback (SeqProofs, ConnProofs) | proved | Prop_Conn.v: C15_connect_request |
| C16 | Namespace disconnection by the remote side | Code.v `replyDisconnect` | symbolic execution, induction over rooms | proved | Prop_Conn.v: C16_disconnect_request |
| C17 | Room join and leave by the remote side | Code.v `replyRoomJoin`, `replyRoomLeave` | symbolic execution | proved | Prop_Conn.v: C17_join_request, C17_leave_request |
| C18 | What Write lets through | Code.v `Write`, `canWrite` | symbolic execution, iff | proved | Prop_Conn.v: C18_write, C18_write_closed, C18_write_accepts |
| C19 | Membership follows the protocol | Code.v `HandlePayload` over a list of payloads | refinement to a membership automaton (Spec_Conn), induction | proved | Prop_Conn.v: C19_payload_refines_machine, C19_membership_of_sequence |
| C20 | A request for a namespace that is not connected gets an answer | Code.v `tryNamespace` | symbolic execution; the code violates it | partial | Prop_Conn.v: C20_unconnected_gets_answer_refuted |
| C21 | Close | Code.v `Close` | symbolic execution, induction over namespaces and rooms | proved | Prop_Close.v: C21_close, C21_close_again |
| C22 | Local connect, disconnect, join and leave | Code.v `askConnect`, `askDisconnect`, `askRoomJoin`, `askRoomLeave` and the public calls | symbolic execution with an answering peer (Spec_View) | proved | Prop_Local.v: C22_connect, C22_disconnect, C22_join, C22_leave |
| C23 | Ask correlation | Code.v `ask`, `handleMessage`, `ServerAsk` | all-schedules invariant (ReplyProofs) | proved | Prop_Reply.v: C23_conn, C23_server |
| C24 | Ask leaves nothing behind | Code.v `ask`, `ServerAsk` | symbolic execution; symbolic counterexamples | partial | Prop_Ask.v: C24_replied_partial, C24_context_refuted, C24_refused_refuted, C24_server_partial, C24_server_context_refuted, C24_server_async_partial |
| C25 | Ask returns when the connection closes | Code.v `ask` | symbolic execution; blocking for every continuation (StuckProofs) | partial | Prop_Ask.v: C25_context_partial, C25_at_once_partial; Prop_Stuck.v: C25_refuted |
| C26 | Ask inside a callback | Code.v `ask` with isInsideHandler, `read_next` | symbolic execution; the code violates it | partial | Prop_Ask.v: C26_refuted, C26_next_partial, C26_ends_partial |
| C27 | A late reply does not stop the connection | Code.v `send` on channels of capacity 1 and 0 | symbolic execution; blocking for every continuation | proved | Prop_Reply.v: C27_late_reply; Prop_Stuck.v: C27_server_refuted |
| C28 | Requests are never taken for replies | Code.v `handleMessage`, `ask` | all-schedules invariant on the tokens | proved | Prop_Reply.v: C28_not_taken, C28_never_returned, C28_server_never_returned |
| C29 | Handshake agreement | Code.v `sendClientACK`, `handleACK`, `Upgrade`, `Dial`, `wait`, `unwait` | sequential composition of the two sides; schedules for the violations; for every schedule an invariant of the gate (Dial.v): it is opened without an error only after the handshake, and the lock that lets a second waiter through is taken twice only after a frame "M" | partial | Prop_End.v: C29_dial_partial; Prop_Handshake.v: C29_accepted_partial, C29_refused_partial, C29_talk_refuted, C29_echo_refuted |
| C30 | Nothing is handled before the handshake | Code.v `reader_step`, `handleQueue` | all-schedules invariant (Ready), induction over the queue | partial | Prop_Handshake.v: C30_refuted; Prop_Ready.v: C30_handshake_partial, C30_queue_partial, C30_client_partial, C30_reordered_refuted |
| C31 | Readiness gate | Code.v `wait`, `unwait` | all-schedules invariant (Gate); blocking for every continuation | partial | Prop_Gate.v: C31_not_before_partial, C31_waits_partial, C31_undecided_partial; Prop_Handshake.v: C31_first_partial; Prop_Stuck.v: C31_refuted |
| C32 | Namespace processes | Code.v `proc_*` | blocking and release run step by step (HoldProofs), every-schedule invariant of the sleeping reader; schedule + blocking for every continuation for the violated part | partial | Prop_Hold.v: C32_waits_partial, C32_until_partial; Prop_Stuck.v: C32_refuted |
| C33 | Asynchronous broadcast | Code.v `broadcast`, `waitMessages` | all-schedules invariant (Async) | proved | Prop_Async.v: C33_order, C33_origin, C33_served, C33_once, C33_refuted |
| C34 | Synchronous broadcast | Code.v `server_step` | all-schedules invariant (Loop): rounds of the loop | proved | Prop_Loop.v: C34_rounds, C34_rest, C34_always |
| C35 | Who receives a broadcast message | Code.v `publishMessages` | symbolic execution, induction over the batch | partial | Prop_Cast.v: C35_one_partial, C35_batch_partial, C35_refuted, C35_empty_id_refuted, C35_closed_partial |
| C36 | Broadcast exclusion | Code.v `Broadcast`, `exclusion`, `canWrite` | symbolic execution | proved | Prop_Cast.v: C36_connection, C36_id, C36_nobody, C36_nsconn |
| C37 | Connection registry | Code.v `server_step`, `Upgrade`, `Close` | all-schedules invariant (Loop); a schedule for the leak | partial | Prop_Loop.v: C37_total_partial, C37_any_time_partial, C37_once_partial, C37_each_partial, C37_refuted |
| C38 | Server close | Code.v `ServerClose`, `server_step`, `Upgrade` | all-schedules invariant (Loop); schedules for the violations | partial | Prop_Loop.v: C38_close_partial, C38_refused_partial, C38_early_refuted, C38_race_refuted, C38_second_refuted |
| C39 | Connect wait on the server gives up after ten seconds | Code.v `Connect`, `Connect_loop` | all-schedules invariant, induction over iterations | partial | Prop_Wait.v: C39_refuted, C39_forever_refuted, C39_endless_refuted, C39_acked_partial |
| C40 | Connection store counters | Store.v, Code.v `add_counter`, `impl` | induction over operations and schedules; the calls in the running process are those of Store.v (C40_process), and an invariant over all schedules (Shelf.v) that only the application puts anything into a store (C40_only_put) | proved | Prop_Shelf.v: C40_process, C40_only_put; Prop_Store.v: C40_increment, C40_decrement, C40_sequence, C40_concurrent, C40_lost_updates_refuted |
| C41 | URL parameters as headers | Http.v `tryParseURLParamsToHeaders` | induction over the query, for every order of enumeration | proved | Prop_Http.v: C41_headers, C41_case |
| C42 | Upgrade decisions | Http.v `upgrade_prologue` | case analysis | proved | Prop_Http.v: C42_decisions, C42_reconnect |
| C43 | Combining stack exchanges | Exchange.v combination | induction over the tree of exchanges | proved | Prop_Exchange.v: C43_every_exchange, C43_connect_stops, C43_ask_first, C43_ask_fallback_refuted, C43_notify |
| C44 | Routing through redis and nats | Exchange.v redis and nats routing | induction over the history of calls; matching lemmas for globs and subjects | proved | Prop_Deliver.v: C44_content, C44_delivery, C44_excluded; Prop_Route.v: C44_redis, C44_nats, C44_publish_panics, C44_redis_pattern_id_refuted, C44_nats_pattern_id_refuted, C44_id_namespace_refuted, C44_nats_twice_refuted, C44_exclude_id_refuted |
| C45 | A remote peer cannot crash the process | whole concurrent layer | all-schedules invariant: no operation of any goroutine can panic (SafeRules, SafeCode, SafeOps, SafeProofs) | proved | Prop_Safe.v: C45_one_panic, C45_no_panic, C45_refuted |
| C46 | Leaving or disconnecting everything terminates | Code.v `DisconnectAll`, `LeaveAll` | self-deadlock proved for every continuation (LockProofs); deadlock with the reader by an invariant over all later schedules (Hung, HungProofs); termination from the C62 conversation theorems | partial | Prop_All.v: C46_leave_partial, C46_disconnect_partial; Prop_Hung.v: C46_reader_refuted, C46_reader_rooms_refuted; Prop_Lock.v: C46_refuted, C46_leave_refuted |
| C47 | Callbacks may use the API | Code.v `forceLeaveAll` | self-deadlock proved for every continuation | partial | Prop_Lock.v: C47_refuted, C47_namespaces_refuted |
| C48 | Simultaneous connects | Code.v `askConnect`, `replyConnect` | symbolic execution of overlapping requests; a schedule of two goroutines | partial | Prop_Twice.v: C48_refuted, C48_twice_refuted |
| C49 | End to end request and reply | two connections linked by frame queues | composition of the sequential theorems with the wire theorems (E2EProofs) | proved | Prop_E2E.v: C49_ask, C49_no_reply |
| C50 | End to end connect and join | two connections linked by frame queues | the same | proved | Prop_E2E.v: C50_connect, C50_connect_agree, C50_connect_agree_refuted, C50_join, C50_join_agree, C50_join_agree_refuted, C50_leave, C50_disconnect |
| C51 | Disconnect error classification | Errors.v, Code.v `write`, `reader_step` | case analysis | proved | Prop_Err.v: C51_close, C51_timeout, C51_disconnect, C51_write |
| C52 | Reading frames | Socket.v | induction over the frames | proved | Prop_Socket.v: C52_read_data, C52_all_messages, C52_broken_off, C52_gorilla |
| C53 | Reconnection tries | Http.v `ReconnectTries`, `Atoi` | induction over digits | proved | Prop_Http.v: C53_reconnect_tries, C53_range, C53_garbage, C53_sign |
| C54 | A connection does not block itself | Code.v `Ask`, `tryNamespace`, `proc_Wait` | invariant over all continuations in which two goroutines hold what the other waits for (Frozen, Cross) | partial | Prop_Cross.v: C54_refuted |
| C55 | Server.Do | Code.v `DoAct`, `server_step` | all-schedules invariant (Loop) | proved | Prop_Loop.v: C55_rounds, C55_rest, C55_sync |
| C56 | Messages of a connection are handled in the order of their arrival, each at most once | Code.v `reader_step`, `handleACK`, `handleQueue`, `handleMessage`; Lang.v `c_got` | all-schedules invariant: what was handled, then what the reader holds, the queue and the unread frames, is a subsequence of what arrived (Order, Shake) | partial | Prop_Order.v: C56_order, C56_order_closed, C56_once, C56_handshake, C56_order_refuted |
| C57 | Nobody gets in without the consent of the callbacks | Code.v `askConnect`, `replyConnect`, `askRoomJoin`, `replyRoomJoin`, `newConn` | all-schedules invariant (Frame, Admit) | proved | Prop_Admit.v: C57_namespace, C57_room, C57_barred, C57_events, C57_barred_events, C57_barred_room |
| C58 | Emitting | Code.v `Emit`, `RoomEmit`, `NSAsk`, `Write`, `HandlePayload`; Message.v | composition of the codec theorems, C18 and the reference machine (ApiProofs) | proved | Prop_Api.v: C58_emit, C58_room_emit, C58_nothing, C58_delivered, C58_room_delivered, C58_ask |
| C59 | Queries | Code.v `Namespace`, `Room`, `Rooms`, `collect_conns`, `collect_nss` | symbolic runs, induction over the connections (ApiProofs) | partial | Prop_Api.v: C59_namespace, C59_room, C59_rooms, C59_connections_partial, C59_by_namespace_partial, C59_refuted |
| C60 | WaitConnect | Code.v `WaitConnect` | symbolic run of one look; a look that ends neither way calls itself (ApiProofs) | proved | Prop_Api.v: C60_wait_connect |
| C61 | Identity of a connection | Code.v `handleACK`, `newConn`, `Upgrade`, `Dial` | invariants over all schedules: Shake.v (fixed), Ident.v (origin) | partial | Prop_Ident.v: C61_fixed, C61_origin_partial, C61_server, C61_client, C61_refuted |
| C62 | What LeaveAll and DisconnectAll do | Code.v `LeaveAll`, `DisconnectAll`, `askRoomLeave`, `askDisconnect` | refinement: with any replies the call does what a reference loop over plain sets does (Spec_All.v); induction over the rooms and namespaces (AllProofs) | proved | Prop_All.v: C62_leave_all, C62_leave_result, C62_leave_agreed, C62_disconnect_all, C62_disconnect_result, C62_disconnect_agreed |
| C63 | How a connection ends | Code.v `code` (TReader, TReaderLoop), `sendClientACK`, `Dial`, `Close` | ghost state "reads c" and "knows that c is closed" of every goroutine; any program at all only adds knowledge; Frame.v for the log of Dial (End.v) | proved | Prop_End.v: C63_reader, C63_dial_error, C63_for_ever |
| C64 | Careless use does not crash the process | Code.v `impl` (nil NSConn), `Broadcast`, `Disconnect`, `handleMessage` | symbolic execution for the calls that are safe; runs that end in a panic for Rooms, Broadcast and a native-only Disconnect (CarelessProofs) | partial | Prop_Careless.v: C64_nil, C64_rooms_refuted, C64_broadcast_refuted, C64_native_refuted |
| C65 | Callbacks of the server may use the server | Code.v `server_step`, `DoAct`, `Broadcast`, `ServerAsk`, `ServerClose` | violated: the invariant of the server loop (Loop.v) shows that only goroutine 0 takes up anything; a program that must wait for it before it returns never gets on (BusyProofs) | partial | Prop_Busy.v: C65_refuted, C65_close_refuted |
| C66 | Connected and disconnect events come in pairs | Code.v `Close`, `replyConnect`, `replyDisconnect`, `askDisconnect` | that it comes only after an admission: the invariant of C57 (Admit.v); the rest is violated: two runs that end with nothing left to do (PairProofs); what holds when nothing overlaps is C21 | partial | Prop_Admit.v: C66_only_admitted_partial, C66_refused_partial; Prop_Pair.v: C66_missing_refuted, C66_twice_refuted |
| C67 | The server keeps every open connection | Code.v `server_step`, `Close`, `code` (TDisconnect) | invariant over all schedules: whoever sends, takes up or acts on a disconnection knows that the connection is closed (Gone.v, an instance of Frame.v); the delivering goroutine as the reader of C63; with the registry of C37 and the rounds of C34 and C55 (GoneProofs) | proved | Prop_Gone.v: C67_told, C67_stays, C67_registered, C67_broadcasts, C67_do, C67_deliverer, C67_socket |
| C68 | Messages stay among the admitted | Code.v `canWrite`, `Write`, `write` and all their callers | the invariant of C57 (Admit.v) extended to what is written: whoever writes to a socket knows that the namespace was found connected and the room joined (FrameW.v, Admit.v) | proved | Prop_Admit.v: C68_frames, C68_barred, C68_barred_room |
| C69 | A closed connection leaves no goroutine behind | Code.v `reader_step`, `read_next`, `waitMessages`, `Close` | no step of the ending goroutine can block once the socket and the channel are closed, which is stable under every step of the others (QuitProofs); for the goroutine of an Ask inside a callback C26_ends_partial | partial | Prop_Quit.v: C69_reader_partial, C69_deliverer_partial |
| C70 | Broadcasts from the callbacks of a delivery | Code.v `broadcast`, `waitMessages`, `publish`, `Broadcast`, `Close` | refuted: the goroutine waits for the lock that it holds (JamProofs); invariant over all schedules that batches are taken over and offered only under that lock (Jam.v), so nothing is broadcast any more; positive part by running the call | partial | Prop_Jam.v: C70_refuted, C70_free_partial |
| C71 | Events that report a membership are true | Code.v `handle_event`, `fireEvent` | refuted: corollary of C12_dispatch, whose events include the three, and a run (ForgeProofs) | partial | Prop_Forge.v: C71_forged_refuted, C71_refuted |
| C72 | An Ask is not disturbed by callbacks of other goroutines | Code.v `Ask`, `ask`, `read_next`, `reader_step` | refuted by a run (MixProofs); in general by C26_refuted | partial | Prop_Mix.v: C72_refuted |
| C73 | Timeouts of a handler apply | Naming.v `getTimeouts`, `join`, `arm` | case analysis over handlers, induction over the list of reads (NamingProofs) | partial | Prop_Naming.v: C73_partial, C73_joined_refuted, C73_pointer_refuted |
| C74 | Namespace of a struct handler | Naming.v `resolveStructNamespace`, `FieldByName` | induction over depth and fields; the search by levels finds what the inductive specification `has_field` says (NamingProofs) | partial | Prop_Naming.v: C74_partial, C74_ambiguous, C74_refuted |
| C75 | Connections that exchange native messages only | Code.v `reader_step`, `handleMessage`, `Write`, `Ask`, `askRoomJoin` with `onlyNative` | execution of the goroutine from any undisturbed state; induction over the list of frames (NativeProofs) | partial | Prop_Native.v: C75_frame, C75_frames, C75_write, C75_ask_refuted, C75_join_refuted |
| C76 | Questions asked at the same moment | Code.v `ask`, Message.v `genWait` | symbolic execution from any undisturbed state; a run that shows the effect (SameProofs) | partial | Prop_Same.v: C76_apart_partial, C76_replaced_refuted, C76_refuted |
| C77 | Asking from the callback of an early message | Code.v `handleACK`, `handleQueue`, `reader_step`, `Ask` | the code violates it: an invariant of all other goroutines shows that the channel stays empty (Self.v, SelfProofs); two runs | partial | Prop_Self.v: C77_reader_refuted, C77_queue_refuted |
| C78 | Any text may come before the handshake | Code.v `reader_step`, `handleACK` | induction over the frames (as for C30); symbolic execution of one round of the reader, with C21 for Close (LetterProofs) | partial | Prop_Letter.v: C78_kept_partial, C78_closed_refuted, C78_taken_refuted |
| C79 | Registering a struct does not panic | Reflect.v `isZero`, `nonzero`, `makeEventsFromStruct` | structural induction over values nested to any depth (ZeroProofs) | partial | Prop_Zero.v: C79_registers_partial, C79_hidden_refuted, C79_results_refuted |
| C80 | The stack exchange is told the end of every connection | Code.v `server_step`, `Upgrade` with the exchange | symbolic execution of one iteration of the server loop; a run (ExitProofs) | partial | Prop_Exit.v: C80_plain_partial, C80_accepted_partial, C80_refused_refuted, C80_refuted |
| C81 | A broadcast excludes only its own sender | Slice.v `BroadcastSlice` (Broadcast with the caller's slice) | equality of programs for every continuation, and C35 for the messages that result (SliceProofs) | partial | Prop_Slice.v: C81_once_partial, C81_kind_partial, C81_again_refuted, C81_missed_refuted, C81_both_refuted |
<!-- end table -->

## 4. Seeded bugs

`seeded/round*.py` list edits of the model that imitate realistic bugs; `tools/mutate.py` applies each to a
scratch copy, rebuilds it, and reports which property theorems no longer prove.  `seeded/LOG.jsonl`
records the results, and which theorems were tightened because a bug had gone unnoticed.

## 5. Trusted base

### 5.1 What is checked by the kernel

Coq 8.16.1's kernel checks every theorem; `coqchk` re-checks the compiled files.  `Print Assumptions` says
"Closed under the global context" for **every** theorem in the `Prop_*.v` files: no axiom is used, neither our own
nor one of the standard library.  Libraries: the Coq standard library, std++ (finite maps and sets, lists, strings, rtc),
coq-record-update (a dependency of the installed libraries; record update notation only).  (std++ loads
ssreflect, whose file ssrunder declares a sealed module; `coqchk` lists its seven parameters
`Coq.ssr.ssrunder.Under_rel.*` as library axioms.  No theorem depends on them.)

### 5.2 What has to be believed

* That the definitions cited `file:lines` say what the Go code does (reading, no extraction, no tests against
  the compiled program; the sandbox has no Go dependencies).
* That the `Spec_*.v` files and the statements say what `properties.jsonl` says in English.

### 5.3 What is modelled

| repository | model |
|---|---|
| message.go | Message.v, Errors.v: all functions (serialize, deserialize, escape, wait tokens, errors, Unmarshal/Marshal are not) |
| conn.go | Code.v: newConn, startReader, handleQueue, handleACK, sendClientACK, HandlePayload, handleMessage, Connect, WaitConnect, askConnect, replyConnect, DisconnectAll, askDisconnect, replyDisconnect, tryNamespace, Write, canWrite, write, writeEmptyReply, Ask, ask, Close, Namespace, Set/Get/Increment/Decrement, Is |
| conn_namespace.go, conn_room.go | Code.v: Emit, EmitBinary, Ask, JoinRoom, Room, Rooms, LeaveAll, forceLeaveAll, Disconnect, askRoomJoin, replyRoomJoin, askRoomLeave, replyRoomLeave, Broadcast; Room.Emit, Room.Leave |
| conn_handler.go, event.go | Handlers.v, Code.v `fireEvent`, Reflect.v |
| reflect.go | Reflect.v (methods and fields as data) |
| server.go | Code.v: start, Close, Upgrade (after the HTTP part), Broadcast, Do, Ask, GetTotalConnections, GetConnections, GetConnectionsByNamespace; Http.v: the HTTP part of Upgrade, IsTryingToReconnect, the header parameters, ReconnectTries |
| broadcaster.go | Code.v: broadcast, waitMessages |
| waiter_once.go, process.go | Code.v: wait, unwait, proc_* |
| client.go | Code.v: Dial (after the dialer has a socket) |
| stackexchange.go | Exchange.v |
| stackexchange/redis, stackexchange/nats | Exchange.v: channels, subscriptions, publication, reception |
| gobwas/socket.go, gorilla/socket.go | Socket.v: ReadData |

### 5.4 What is not modelled, and simplifications

* **The Go memory model.** Every operation is atomic and sequentially consistent.  Data races of the code (LeaveAll's
  read of connectedNamespaces, `processes.get`, the broadcaster's message slice) are seen only
  as interleavings of atomic accesses, never as torn or stale values.
* **Critical sections without a blocking call inside** are one atomic operation.  The mutexes that are held
  while callbacks or network calls run (connectedNamespacesMutex, roomsMutex, the broadcaster's) are explicit.
  Go's writer preference of RWMutex is not modelled; it only adds blocking.
* **External libraries**: gobwas/ws, gorilla/websocket, radix (redis), nats.go and their servers.  What neffos uses of them is
  modelled from their documentation: frame checking in `Socket.v`, redis glob matching and nats subject matching in
  `Exchange.v`.  In the concurrent layer a socket is a queue of incoming frames with a final error, a
  list of written frames, and a write error; deadlines of reads and writes are the environment's choice of
  `EReadEnd`/`EWriteFail`.  A peer may send any frames, so "remote peer" means any byte strings in any order.
* **net/http, TLS, URL parsing**: only the decisions of Upgrade.  net/textproto's canonicalisation is modelled.
* **Application code** (callbacks, OnConnect, OnDisconnect, functions passed to Do, goroutines) is an arbitrary
  program that calls the exported API and reads the clock, with arbitrary branching on what it learns
  (`Spec_App.v`).  It does not modify exported fields of the library's objects, does not call methods on objects it invented, and does not
  share slices of messages with the library after a call (Broadcast keeps and modifies the slice it is given: Slice.v, C81).
* **Integers**: lengths and counters of 32 and 64 bits are unbounded except where the code's own range matters
  (Store.v's counters wrap, Http.v's Atoi clamps).  The clock is an integer number of nanoseconds that never decreases.
* **Stack exchanges** in the concurrent layer are synchronous: each call returns a result given by the configuration, and is logged.
* `Marshal`/`Unmarshal` with user functions, the debug logger (debug.go), `Conn.Socket`, `String` methods,
  the JavaScript client, and `_examples` are not modelled.
* Struct injectors (`Struct.SetInjector`) are modelled only by the default injector; in the concurrent layer SetTimeouts and
  the WithTimeout durations are deadlines of the socket and hence the environment's (which timeouts a connection gets is in `Naming.v`).

## 6. Findings about the code

All are consequences of the model; a theorem name is given where one is proved.

**Wire format.**
1. A name that contains the replacement text of ';' does not survive the wire (C02_*).
2. The token that Server.Ask generates under a stack exchange is never recognised by the receiving server (C09_token_never_recognised_refuted).
3. Wait tokens and FromExplicit are not escaped; a custom connection ID with ';' would corrupt frames under a stack exchange.
4. An error with empty text is lost (C04_empty_error_text_is_lost); an error drops the body; a CloseError without inner error panics when printed.
5. A native payload with six or more ';' is parsed as a neffos message (C06).

**Connections.**
6. The refusal for a namespace that is not connected is never written, so the remote Ask hangs (C20_*_refuted).
7. An Ask without deadline is blocked for ever when the connection closes (C25_refuted); an Ask that ended by its context or whose write was refused leaves its waiter behind (C24_*_refuted).
8. An Ask inside a callback returns the next frame whatever it is, and that frame's own callback is skipped (C26_refuted).
9. A reply that arrives after Server.Ask gave up blocks the reader for ever (C27_server_refuted).
10. Overlapping Connects of the same namespace: the connected event fires twice, the NSConn is replaced and its rooms are lost (C48_*_refuted); the reader is blocked for ever (C32_refuted); the process can panic with "WaitGroup is reused before previous Wait has returned" (C45_refuted).
11. DisconnectAll and LeaveAll deadlock with themselves when a write fails (C46_*), and so does a callback of a forced leave that uses the rooms of its NSConn (C47_refuted). They also deadlock with the reader of their connection when any event, join or leave request arrives before the answer they wait for, since the reader needs the lock they hold (C46_reader_refuted, C46_reader_rooms_refuted).
12. Server-side Connect before the acknowledgement never gives up (C39_*_refuted).
13. A message of a namespace that arrives while its Connect waits for the answer blocks the reader, which therefore never reads the answer: both block for ever (C54_refuted).  The server itself sends in this order, because it registers the namespace before it writes the reply.
14. Counters of the store lose updates (C40_lost_updates_refuted).

**Handshake.**
15. A peer that sends the byte 'A' followed by an ID to a server ends the handshake itself: OnConnect's refusal is bypassed and the ID is the peer's choice (C30_refuted).  This is security relevant.
16. A client that gets 'M' before its ID returns from Dial without acceptance (C29_echo_refuted); a Write or Connect inside OnConnect opens the gate, a later error of OnConnect is ignored (C29_talk_refuted).
17. waiterOnce loses wakeups: a waiter that passes the ready check just before it is opened may sleep for ever (C31_refuted).
18. Messages queued before the handshake are handled text first or binary first, not in order of arrival (C30_reordered_refuted); the client never handles its queue (C30_client_partial).
18a. Close clears the flag of the handshake before it closes the socket: a frame "M" in between is a second handshake, after which queued frames of a client are handled, later than frames that arrived after them (C56_order_refuted).

**Server.**
19. A disconnection taken up before the connection leaks it (C37_refuted).
20. Close before the loop has started, an Upgrade past the check, and a second concurrent Close leave connections open (C38_*_refuted).
21. A broadcast batch stops at the first message that is not meant for the connection; a connection with an empty ID gets no broadcasts (C35_*_refuted).
22. The asynchronous broadcaster loses and repeats batches (C33_refuted).
23. The fallback of several exchanges asks the second with the failed answer (C43_ask_fallback_refuted); exclusion by ID, IDs with pattern bytes, an ID equal to a namespace, and repeated nats subscriptions break routing (C44_*_refuted).

**Struct handlers.**
24. A non-zero unexported field panics at the first connect (C14_unexported_field_refuted); a registered non-nil NSConn field is shared (C14_registered_nsconn_refuted).
25. A connection can take over the ID of another one: it sends the frame "A" with that ID instead of "M". From then on messages with `To` set to this ID reach it (C61_refuted).
26. GetConnections and GetConnectionsByNamespace lose a connection when two connections have the same ID (C59_refuted).
27. NSConn.Rooms on the nil NSConn that a failed Connect returned panics, though its siblings check for nil (C64_rooms_refuted).
28. Broadcast through the NSConn of a client panics: a client has no server (C64_broadcast_refuted).
29. On a connection that exchanges native messages only, Disconnect succeeds at once and removes the only namespace; the next frame panics (C64_native_refuted).
30. OnDisconnect and the functions given to Do run on the goroutine of the server. If one of them calls Do, Close, or with a synchronous broadcaster Broadcast or Ask, the server waits for itself for ever: no connection is registered or removed any more (C65_refuted, C65_close_refuted).
31. If a connection is closed while its OnNamespaceConnect callback runs (for instance by the callback), it enters the namespace after the close: OnNamespaceConnected is called, and OnNamespaceDisconnect never (C66_missing_refuted).
32. If a connection is closed while its reader handles a request to disconnect, OnNamespaceDisconnect is called twice (C66_twice_refuted).
33. Close calls OnNamespaceDisconnect while it holds the lock of the namespaces: a callback that asks the connection for a namespace never returns (C47_namespaces_refuted).
34. The goroutine that delivers a broadcast holds the lock of the broadcaster while it writes (server.go:458-468). If the write fails it closes the connection and runs OnRoomLeave and OnNamespaceDisconnect under that lock; a callback that broadcasts there blocks for ever, and with it all later broadcasts and deliveries of the server (C70_refuted).
35. handleMessage treats a frame with the event OnNamespaceConnected, OnRoomJoined or OnRoomLeft like any event of the application (conn.go:465-479): the remote side can make these callbacks run for rooms it was refused (C71_forged_refuted, C71_refuted).
36. isInsideHandler is a flag of the connection and not of the goroutine (conn.go:342-344, 936-939): an Ask that any goroutine makes while a callback runs takes away and returns the next frame of the connection (C72_refuted).
37. getTimeouts looks only at the dynamic type of the handler it is given: JoinConnHandlers loses the timeouts of all its handlers, and a *WithTimeout, which is a valid ConnHandler, has none (C73_joined_refuted, C73_pointer_refuted).
38. resolveStructNamespace reads field Index[0] instead of the promoted field it found: the namespace of a struct that embeds its Namespace field is "<T Value>" (C74_refuted).
39. On a connection that exchanges native messages only, Ask returns the empty message and a nil error at once, without sending anything, even if the connection is closed; JoinRoom then reports success for a room that exists on this side only (C75_ask_refuted, C75_join_refuted).
40. The token of an Ask is the reading of the clock and nothing else. Two Asks of one connection at one reading (clocks of some systems advance in steps of up to milliseconds) share a token: the second takes the place of the first, is given the reply to the first question, and the first waits for ever (C76_replaced_refuted, C76_refuted).
41. handleQueue calls HandlePayload without setting isInsideHandler (conn.go:359, 399-410 against 342-344): an Ask in the callback of a message that arrived before the handshake registers for a reply that only its own goroutine could read; the reader is blocked for ever and the handshake is never answered (C77_reader_refuted, C77_queue_refuted).
42. handleACK decides by the first byte and does not ask on which side it is: a native text such as "Hello" that reaches a server before the handshake closes the connection, "Anna here" gives it the ID "nna here" (C78_closed_refuted, C78_taken_refuted).
43. isZero calls the IsZero method of a field's type by reflection: for an unexported field this panics, so a struct with an NSConn and an unexported time.Time cannot be registered; and the condition that should skip methods of another type mixes up && and || (reflect.go:30), so that IsZero() and IsZero() int panic too (C79_hidden_refuted, C79_results_refuted).
44. The `continue` of server.go:184 that suppresses OnDisconnect for refused connections also skips StackExchange.OnDisconnect: the exchange, which was told of the connection before OnConnect ran, keeps its subscriber for ever (C80_refused_refuted, C80_refuted).
45. Broadcast called with a slice writes the exclusion of its sender into the caller's messages (server.go:518-524): if the slice is broadcast again without a sender, or with an Exclude value, the earlier sender is still excluded (C81_again_refuted, C81_missed_refuted, C81_both_refuted).
