# id | status | note
C09 | partial | The property is violated by the code; the theorem proves that no generated token is ever recognised.
C14 | proved | Proved under the two provisos of the statement; the _refuted theorems show that both are needed.
C20 | partial | The code violates the property: the refusal for a namespace that is not connected is never written; the _refuted theorem proves it.
C40 | proved | The _refuted theorem shows the lost updates for every number of concurrent calls.
C43 | proved | The _refuted theorem shows that the fallback of Ask asks the second exchange with the failed answer instead of the question.
C50 | proved | Agreement holds unless a callback of the asked side returns a Reply or an error without text; the _refuted theorems show these cases.
C44 | proved | Reach, content and delivery proved; the _refuted theorems show what breaks it: exclusion by ID, pattern bytes in an ID, an ID equal to a namespace, repeated nats subscriptions.
C45 | proved | One panic is possible in any execution (reuse of a WaitGroup by repeated Connects), proved reachable by the _refuted theorem and proved to be the only one; none without Connect calls.
C25 | partial | A closed connection, an expired deadline and the end of the context are proved. The code violates the property for an Ask without deadline; the _refuted theorem proves that it is blocked for ever.
C27 | proved | Holds for Conn.Ask; violated by Server.Ask, whose late replies block the reader for ever (_refuted theorem).
C31 | partial | For every schedule nobody passes before the gate is opened (C31_not_before_partial); a waiting goroutine gets the result it is opened with (C31_waits_partial); the first result is kept (C31_first_partial). The code loses wakeups: the _refuted theorem proves that a waiter that arrives too late is blocked for ever.
C32 | partial | For the first Connect of a namespace the property holds: a message waits, without any effect, until the Connect ends and is then handled as if it came then (in the part run without interruption, and in every schedule it waits until some Connect of the namespace ends). With overlapping Connects it is violated: the gate stays closed and the _refuted theorem proves that the reader is blocked for ever.
C46 | partial | The property is violated; the _refuted theorems prove that both calls block for ever with a broken socket, and also with a working one if a message arrives before the answer (the reader needs the lock the call holds). The _partial theorems: on an undisturbed connection with as many answers as rooms or namespaces the calls end and keep no lock.
C47 | partial | The property is violated for forced leaves and for OnNamespaceDisconnect during Close; the _refuted theorems prove that such a callback blocks for ever.
C24 | partial | Holds for Ask and Server.Ask when the reply arrives; the _refuted theorems show that the waiter stays registered after the context ended and after a refused write.
C26 | partial | The property is violated: the _refuted theorem shows that the Ask returns the next frame, whatever it is, and that no callback runs for it. The _partial theorems: if the reply comes next it is returned, and if the connection ends the error is.
C35 | partial | The code violates the property: a batch stops at the first message that is not meant for the connection, and a connection with an empty ID gets nothing; the _refuted theorem and the exact law are proved.
C39 | partial | The code violates the property on a server side connection that is never acknowledged: the call never returns; proved for every schedule.
C37 | partial | The count, the at-most-once OnDisconnect and (with FireDisconnectAlways) its completeness are proved for every schedule; the last clause is violated by the code: a disconnection taken up before the connection leaks it (refuted by a reachable state).
C38 | partial | Proved for a running server and the first Close in every schedule; the code violates the property for a Close before the loop has started, for an Upgrade past the check and for a second concurrent Close (refuted by reachable states).
C33 | proved | Exactly-once in general is violated (C33_refuted); what the English says instead is proved for every schedule.
C29 | partial | Proved for every ID and error text in an undisturbed handshake, and (C29_dial_partial) for every schedule of any application and any frames of the other side: Dial succeeds only after the handshake was completed by the frame with that ID, unless the other side sent a frame "M". Two _refuted theorems show where the agreement fails.
C30 | partial | Proved for every schedule that the handshake of the connection comes first; the queue is proved for every list of frames. The _refuted theorem shows that a refused peer can end the handshake itself.
C48 | partial | The property is violated; the _refuted theorems show it for a request of the other side that overlaps (every state) and for two goroutines that connect at the same time.
C54 | partial | The property is violated: the _refuted theorem shows, for every reachable state with such a pair of goroutines, that both are blocked for ever; the example reaches one with a server and a client that both run the code. That Connect returns when nothing comes before the answer is part of C15 and C16.
C56 | partial | Order is per kind of frame: frames of both kinds that are queued before the handshake are handled one kind after the other (C30_reordered_refuted). The order is proved while the connection is open; once Close runs, a second handshake can break it (C56_order_refuted), and only then (C56_order_closed).
C59 | partial | GetConnections and GetConnectionsByNamespace are exact if the IDs of the registered connections are distinct. Two connections with one ID share an entry, so that one of them is missing (C59_refuted). GetConnectionsByNamespace is about the moment when no goroutine holds the locks of the namespaces.
C61 | partial | Proved in every schedule: the ID stays after the handshake, a client has the ID it was sent, and a server side connection the generated one unless the other side sent a frame "A". With such a frame it takes the ID of another connection (C61_refuted).
C64 | partial | Proved for Emit, EmitBinary, Ask, JoinRoom, Room, LeaveAll and Disconnect on a nil NSConn. The code violates it for Rooms on a nil NSConn, for Broadcast on a client's NSConn and for Disconnect on a native-only connection: the three _refuted theorems are runs that end in a panic.
C65 | partial | The code violates the property: the two _refuted theorems show, for every application and schedule, that the server takes up nothing any more after such a call (Do; Broadcast and Ask with a synchronous broadcaster; Close of an open server).
C66 | partial | Proved for every schedule: a disconnect event comes only for a namespace that was admitted (C66_only_admitted_partial). The code violates the rest: a disconnect event can be missing, and it can come twice (_refuted theorems). C21_close proves that Close calls OnNamespaceDisconnect exactly once for every connected namespace if nothing else runs for the connection.
C69 | partial | Proved for every schedule for a reader at the start of a round, and for a deliverer at the start of a round while the lock of the broadcaster is free; C26_ends_partial is the part for an Ask inside a callback. Missing: rounds under way, which wait for callbacks and, as C54_refuted shows, can block for ever.
C70 | partial | Violated (C70_refuted). Proved: the call returns while the lock of the broadcaster is free. Missing: Broadcasts that wait for deliveries under way.
C71 | partial | Violated (C71_forged_refuted for every state at rest, C71_refuted with a reachable witness). The calls that are due to real requests are in C15, C16, C19 and C66. Missing: which of the calls are not forged.
C72 | partial | Violated: the _refuted theorem is a run of an application whose callbacks do not use the API; C26_refuted shows for every state with the flag set, and every goroutine, what the Ask does. That an Ask which began while no callback ran returns its own reply, in every schedule, is C23_conn.
C73 | partial | Proved for WithTimeout values and Structs; violated for joined handlers and for pointers (_refuted theorems).
C74 | partial | Proved for SetNamespace, the method, and fields of the struct itself; violated for fields of embedded structs at any depth (C74_refuted).
C75 | partial | Proved for what is received and what is written, from undisturbed states (the order in every schedule is C56); violated by Ask and JoinRoom (_refuted theorems).
C76 | partial | Proved for Asks at different readings of the clock (the new one leaves the waiting ones registered; that a registered Ask gets the reply with its token is C23_conn and C27). Violated at equal readings (two _refuted theorems).
C77 | partial | Violated: C77_reader_refuted for every reachable state with such a reader, C77_queue_refuted by two runs that differ in the order of the frames only. That the Ask returns the reply for messages after the handshake, if the reply comes next, is C26_next_partial.
C78 | partial | Proved for all sequences of non-empty frames that begin with none of the letters M, A and H; violated for H and A in every undisturbed state (two _refuted theorems).
C79 | partial | Proved unless a field involves an IsZero method without arguments that is hidden in an unexported field or does not return exactly one bool; violated in these cases (two _refuted theorems).
C80 | partial | Proved for one iteration of the server loop from every state, without an OnDisconnect callback and with one that returns if the connection was accepted or FireDisconnectAlways is set; violated otherwise (C80_refused_refuted, and a whole run in C80_refuted). Missing: that the end of every connection is taken up (C37).
C81 | partial | Proved for slices that are used once and for repeated calls whose senders are all connections or all Exclude values; violated when the second call has no sender or one of the other kind (C81_again_refuted, C81_missed_refuted, C81_both_refuted). Missing: Room senders in repeated calls, callers that change the slice while Broadcast runs.
