{"id": "C01", "title": "Wire round trip of a message", "statement": "Serializing a (non native) message and deserializing the bytes yields the same wait token, namespace, room, event, no-op flag, body or error, for every message whose namespace, room and event survive escaping (C02), whose wait token has no separator and is not in one of the two reserved forms, and whose error text is not empty.", "quantifier": "all messages: all namespaces, rooms, events, bodies, errors, wait tokens, and all lists of registered known errors", "why_tests_cant": "The fields are arbitrary byte strings that may contain the separator, the escape text or pieces of it; a test fixes a handful of literals.", "anchors": ["message.go:serializeMessage", "message.go:DeserializeMessage", "message.go:serializeOutput", "message.go:deserializeInput"]}
{"id": "C02", "title": "Exactly which names survive the wire", "statement": "A namespace, room or event name is received as it was sent if and only if it contains neither '@%!semicolon@%!' nor '@%!semicolon;'. In particular the documented belief that only the full replacement text is dangerous is false.", "quantifier": "all byte strings", "why_tests_cant": "The exact set of safe names is an infinite language; the overlap of the escape text with itself (its prefix equals its suffix) is only visible when all strings are considered.", "anchors": ["message.go:escape", "message.go:unescape", "message.go:messageFieldSeparatorReplacement"]}
{"id": "C03", "title": "Names cannot inject fields", "statement": "Whatever the namespace, room, event and body contain (safe or not), the receiver splits the serialized message into the same seven fields: token, no-op flag, error flag and body arrive unchanged and each name arrives as the unescaped form of its own escaped text only.", "quantifier": "all messages with a token free of the separator", "why_tests_cant": "Injection freedom is a statement about every adversarial name.", "anchors": ["message.go:serializeOutput", "message.go:deserializeInput", "message.go:escape"]}
{"id": "C04", "title": "Errors and replies on the wire", "statement": "A callback error that is a Reply reaches the other side as a plain body without error; any other error with non empty text reaches it as an error with that text and the body is dropped; if a registered known error resolves or equals the text, the first such registered value is delivered, otherwise a fresh error with the text. An error with empty text is received as success.", "quantifier": "all errors, all texts, all lists of known errors", "why_tests_cant": "Depends on every text and on the order of an unbounded registration list.", "anchors": ["message.go:resolveError", "message.go:RegisterKnownError", "event.go:Reply", "event.go:isReply", "message.go:deserializeInput"]}
{"id": "C05", "title": "Decoding is total and rejects exactly the malformed payloads", "statement": "DeserializeMessage never fails on any bytes; the result is invalid exactly if the payload is empty or (when native messages are not allowed) has fewer than six separators; otherwise the seven fields joined with the separator give the payload back.", "quantifier": "all byte strings and all four native-mode flag combinations", "why_tests_cant": "Every remote byte string must be covered; fuzzing samples.", "anchors": ["message.go:DeserializeMessage", "message.go:deserializeInput"]}
{"id": "C06", "title": "Native messages round trip", "statement": "A native message body sent without a wait token is delivered unchanged to OnNativeMessage exactly if it is non empty and either the receiver handles only native messages or allows them and the body has fewer than six separators.", "quantifier": "all bodies and receiver modes", "why_tests_cant": "The boundary is a count over arbitrary bodies.", "anchors": ["message.go:serializeMessage", "message.go:deserializeInput"]}
{"id": "C07", "title": "When serialization panics", "statement": "Serialize panics exactly if (outside the native shortcut) both a wait token and an explicit sender are set, or the error is a CloseError without inner error; Conn.Write never triggers the first panic, whatever the message.", "quantifier": "all messages", "why_tests_cant": "Panic freedom quantifies over all field combinations.", "anchors": ["message.go:serializeMessage", "conn.go:Conn.Write", "event.go:CloseError.Error"]}
{"id": "C08", "title": "Wait tokens", "statement": "Tokens generated by a client never equal tokens generated by a server; tokens generated at different clock values differ; generated tokens travel over the wire unchanged; a server never treats a client request as a reply and a client treats its own tokens as replies.", "quantifier": "all clock values (64 bit) and both sides", "why_tests_cant": "All pairs of times must be considered.", "anchors": ["message.go:genWait", "message.go:Message.IsWait", "message.go:DeserializeMessage"]}
{"id": "C09", "title": "Scale-out ask token is recognised on the way back", "statement": "The token produced for Server.Ask over a StackExchange is recognised by the receiving server as coming from a StackExchange. (Violated: the code adds the marker to the first byte instead of inserting it, so no generated token is ever recognised.)", "quantifier": "all clock values", "why_tests_cant": "The failure needs a redis or nats deployment and holds for every token, tests cover only the single-server path.", "anchors": ["message.go:genWaitStackExchange", "message.go:DeserializeMessage", "server.go:Server.Ask", "conn.go:Conn.handleMessage"]}
{"id": "C10", "title": "Empty replies mean success", "statement": "The byte string a side writes to acknowledge connect, disconnect, join and leave decodes, for every token, to a message with exactly that token, no error and empty fields, so the asking call returns without error.", "quantifier": "all tokens generated by either side", "why_tests_cant": "All tokens.", "anchors": ["message.go:genEmptyReplyToWait", "conn.go:Conn.writeEmptyReply"]}
{"id": "C11", "title": "Joining handlers", "statement": "After JoinConnHandlers the callback for a namespace and event is the one of the last handler that defines it, undefined pairs stay undefined, and the given handlers are not modified.", "quantifier": "all lists of handlers, namespaces and events", "why_tests_cant": "Unbounded lists of maps.", "anchors": ["conn_handler.go:JoinConnHandlers", "conn_handler.go:WithTimeout.GetNamespaces"]}
{"id": "C12", "title": "Event dispatch", "statement": "An incoming event runs the callback registered for exactly that event, otherwise the OnAnyEvent callback, otherwise nothing; at most one callback runs.", "quantifier": "all event maps and messages", "why_tests_cant": "All maps and names.", "anchors": ["conn_handler.go:Events.fireEvent"]}
{"id": "C13", "title": "Struct handlers: event names", "statement": "Methods named like a system event are registered as that system event whatever the matcher says; any other method is registered under the name the matcher gives, or not at all if it rejects it. OnAnyEvent and OnNativeMessage methods are not mapped to the special events.", "quantifier": "all method sets and matchers", "why_tests_cant": "All method sets and arbitrary matcher functions.", "anchors": ["reflect.go:makeEventFromMethod", "reflect.go:makeEventsFromStruct", "event.go:IsSystemEvent"]}
{"id": "C14", "title": "Struct handlers: one controller per connection", "statement": "With a dynamic struct (all of whose fields are exported and whose registered NSConn field is nil) every connected namespace gets its own controller value whose NSConn field is that connection and whose other non zero fields are copies of the registered ones; callbacks of one connection never see the controller of another.", "quantifier": "all histories of connects and events", "why_tests_cant": "Isolation over all histories.", "anchors": ["reflect.go:makeEventsFromStruct", "reflect.go:getNonZeroFields"]}
{"id": "C15", "title": "Namespace admission by the remote side", "statement": "A connect request is answered positively and the namespace becomes connected exactly if it is declared and its OnNamespaceConnect callback returns no error; a refusal carries the error back and leaves the connection not connected; an already connected namespace is acknowledged without firing events again; nothing else changes.", "quantifier": "all requests, handler maps and connection states", "why_tests_cant": "All states and requests.", "anchors": ["conn.go:Conn.replyConnect", "conn.go:Conn.notifyNamespaceConnected"]}
{"id": "C16", "title": "Namespace disconnection by the remote side", "statement": "On the server a disconnect request is refused exactly if the callback returns an error (then membership is unchanged); on a client it always succeeds. On success all rooms of the namespace are left with forced leave and left events first, the namespace is no longer connected and exactly one empty reply is written.", "quantifier": "all requests, room sets, iteration orders and handler results", "why_tests_cant": "All room sets and map iteration orders.", "anchors": ["conn.go:Conn.replyDisconnect", "conn_namespace.go:NSConn.forceLeaveAll"]}
{"id": "C17", "title": "Room join and leave by the remote side", "statement": "A join request makes the connection a member exactly if OnRoomJoin returns no error; a leave request removes it exactly if (on the server) OnRoomLeave returns no error; joining twice and leaving a not joined room are acknowledged without events; other rooms and namespaces are untouched; each request gets exactly one answer.", "quantifier": "all requests, room sets, handler results", "why_tests_cant": "All states.", "anchors": ["conn_namespace.go:NSConn.replyRoomJoin", "conn_namespace.go:NSConn.replyRoomLeave"]}
{"id": "C18", "title": "What Write lets through", "statement": "Write puts bytes on the wire exactly if the connection is open, the message is a connect or disconnect or its namespace is connected and, for a non empty room (except for join and left messages), that room is joined, and the explicit sender is not this connection; the bytes are the serialized message with the explicit sender removed.", "quantifier": "all messages and connection states", "why_tests_cant": "All combinations.", "anchors": ["conn.go:Conn.canWrite", "conn.go:Conn.Write", "conn.go:Conn.Is"]}
{"id": "C19", "title": "Membership follows the protocol", "statement": "Processing any sequence of incoming messages changes the connected namespaces and joined rooms of a connection exactly as a simple membership specification says (connect adds, disconnect removes with all rooms, join and leave change one room, every other message changes nothing).", "quantifier": "all sequences of incoming payloads, all handler decisions", "why_tests_cant": "Unbounded histories.", "anchors": ["conn.go:Conn.handleMessage", "conn.go:Conn.HandlePayload"]}
{"id": "C20", "title": "A request for a namespace that is not connected gets an answer", "statement": "A request (Ask, join, leave) for a namespace that the receiving side is not connected to is answered with a bad namespace error. (Violated: the answer is discarded by the write check for every such request, so the asker gets no answer.)", "quantifier": "all requests and states", "why_tests_cant": "Needs asymmetric connection state; holds for all of them.", "anchors": ["conn.go:Conn.tryNamespace", "conn.go:Conn.canWrite"]}
{"id": "C21", "title": "Close", "statement": "Close fires, for every connected namespace and each of its rooms, the forced leave, left and disconnect events exactly once and in this order, leaves nothing connected or joined, and a second Close does nothing.", "quantifier": "all membership states and iteration orders", "why_tests_cant": "All states and map orders.", "anchors": ["conn.go:Conn.Close", "conn_namespace.go:NSConn.forceLeaveAll"]}
{"id": "C22", "title": "Local connect, disconnect, join and leave", "statement": "Connect, Disconnect, JoinRoom and Leave called locally change local membership exactly if the remote side answered without error (and, for join and leave, the local callback agreed); on any error local membership is unchanged.", "quantifier": "all states, replies and handler results", "why_tests_cant": "All replies and states.", "anchors": ["conn.go:Conn.askConnect", "conn.go:Conn.askDisconnect", "conn_namespace.go:NSConn.askRoomJoin", "conn_namespace.go:NSConn.askRoomLeave"]}
{"id": "C23", "title": "Ask correlation", "statement": "An Ask that is not made inside an event callback only ever returns a message that carries the token of its own request, in every interleaving of any number of concurrent asks, readers and remote behaviour.", "quantifier": "all schedules, all remote behaviours", "why_tests_cant": "All interleavings of unboundedly many goroutines.", "anchors": ["conn.go:Conn.ask", "conn.go:Conn.handleMessage"]}
{"id": "C24", "title": "Ask leaves nothing behind", "statement": "After Ask returns no waiter for its token remains registered. (Holds when a reply arrived; violated when the context expired or the write failed: the entry stays until the connection is closed.)", "quantifier": "all outcomes of Ask", "why_tests_cant": "A leak is invisible to a functional test.", "anchors": ["conn.go:Conn.ask"]}
{"id": "C25", "title": "Ask returns when the connection closes", "statement": "A pending Ask returns with an error once the connection is closed. (Violated: Close only forgets the waiter, an Ask whose context has no deadline blocks for ever in every continuation.)", "quantifier": "all continuations after Close", "why_tests_cant": "'Never returns' cannot be observed by a test.", "anchors": ["conn.go:Conn.ask", "conn.go:Conn.Close"]}
{"id": "C26", "title": "Ask inside a callback", "statement": "An Ask made inside an event callback returns the reply to its own request. (Violated: it returns whatever message arrives next, and that message is not dispatched.)", "quantifier": "all schedules and remote behaviours", "why_tests_cant": "Depends on message order.", "anchors": ["conn.go:Conn.ask", "conn.go:Conn.startReader"]}
{"id": "C27", "title": "A late reply does not stop the connection", "statement": "A reply that arrives after its asker has given up does not block the connection's reader. (Holds for the first late reply to Conn.Ask; violated by Server.Ask, whose channel is unbuffered: the reader blocks for ever.)", "quantifier": "all schedules", "why_tests_cant": "A permanent block is not observable by a test with a timeout.", "anchors": ["server.go:Server.Ask", "conn.go:Conn.handleMessage", "conn.go:Conn.ask"]}
{"id": "C28", "title": "Requests are never taken for replies", "statement": "A request generated by the remote side is never consumed by a pending local Ask.", "quantifier": "all pending sets and all clock values", "why_tests_cant": "All tokens.", "anchors": ["conn.go:Conn.handleMessage", "message.go:Message.IsWait", "message.go:genWait"]}
{"id": "C29", "title": "Handshake agreement", "statement": "Dial returns without error only after the server accepted the connection, and then the client ID equals the ID the server generated; if OnConnect fails before anything was written, Dial returns an error with the same text. (Violated in two cases: an OnConnect that writes first and fails afterwards does not reject the connection, and a peer that answers the first frame with the same frame makes Dial succeed without any acceptance.)", "quantifier": "all IDs and error texts", "why_tests_cant": "All byte strings and orders.", "anchors": ["conn.go:Conn.handleACK", "conn.go:Conn.sendClientACK", "server.go:Server.Upgrade", "client.go:Dial"]}
{"id": "C30", "title": "Nothing is handled before the handshake", "statement": "In every schedule no event callback runs because of a remote message before the server side accepted the connection; messages received earlier by a server are handled later, in arrival order per message type. (Text and binary messages may be reordered; a client never handles messages that arrived before its acknowledgment. The first part is violated: a peer that sends the server acknowledgment itself is treated as accepted, with an ID of its choice, even if OnConnect refused it.)", "quantifier": "all schedules and message sequences", "why_tests_cant": "All interleavings.", "anchors": ["conn.go:Conn.startReader", "conn.go:Conn.handleACK", "conn.go:Conn.handleQueue"]}
{"id": "C31", "title": "Readiness gate", "statement": "The readiness gate never panics with a single waiter, lets nobody through before it is opened, keeps its first result when opened sequentially, and lets the waiter through once opened. (The last part is violated: an open between the check and the lock is missed and the waiter blocks for ever.)", "quantifier": "all schedules of one waiter and any number of openers", "why_tests_cant": "The race window is a few instructions.", "anchors": ["waiter_once.go:waiterOnce.wait", "waiter_once.go:waiterOnce.unwait"]}
{"id": "C32", "title": "Namespace processes", "statement": "A message for a namespace that is being connected waits until the connect is done. (Holds for the first connect; violated afterwards: later connects do not block, two overlapping connects block a waiting reader for ever.)", "quantifier": "all schedules", "why_tests_cant": "Race windows and permanent blocks.", "anchors": ["process.go:process", "process.go:processes.get", "conn.go:Conn.tryNamespace"]}
{"id": "C33", "title": "Asynchronous broadcast", "statement": "In every schedule a connection only receives batches that were broadcast, never an older batch after a newer one, and at most as many batches as were broadcast; an undisturbed waiting connection receives a broadcast exactly once. (Exactly-once in general is violated: a batch can be lost or delivered twice.)", "quantifier": "all schedules, any number of broadcasts and connections", "why_tests_cant": "Loss and duplication depend on scheduling.", "anchors": ["broadcaster.go:broadcaster.broadcast", "broadcaster.go:broadcaster.waitUntilClosed", "server.go:Server.waitMessages"]}
{"id": "C34", "title": "Synchronous broadcast", "statement": "With SyncBroadcaster every broadcast batch is offered to every registered connection exactly once and in the order the broadcasts were accepted.", "quantifier": "all sequences of server loop events", "why_tests_cant": "Unbounded histories.", "anchors": ["server.go:Server.start", "server.go:publishMessages"]}
{"id": "C35", "title": "Who receives a broadcast message", "statement": "For a broadcast of one message, an open connection gets it exactly if its ID is not the excluded ID, the To field is empty or equals its ID, and it passes the Write rules (C18). For several messages in one call the same holds for each. (The second part is violated: the first message not meant for a connection also suppresses all later ones.)", "quantifier": "all messages, all connection sets", "why_tests_cant": "All combinations.", "anchors": ["server.go:publishMessages", "server.go:Server.Broadcast"]}
{"id": "C36", "title": "Broadcast exclusion", "statement": "Broadcasting with a Conn or NSConn as sender excludes exactly that connection; with any other stringer (Room, Exclude) it excludes all connections having that ID.", "quantifier": "all connection sets, including several connections with one ID", "why_tests_cant": "All sets of IDs.", "anchors": ["server.go:Server.Broadcast", "server.go:publishMessages", "conn.go:Conn.Is"]}
{"id": "C37", "title": "Connection registry", "statement": "In every history GetTotalConnections equals the number of registered connections, and OnDisconnect is called at most once per connection and only for a connection that was registered. (That a closed connection is eventually unregistered is violated: its disconnect signal may be consumed before its connect signal.)", "quantifier": "all histories and schedules", "why_tests_cant": "Unbounded histories.", "anchors": ["server.go:Server.start", "server.go:Server.GetTotalConnections"]}
{"id": "C38", "title": "Server close", "statement": "After Server.Close returns new upgrades are rejected and every registered connection is closed. (Violated for a server closed before its loop has started, whose closed flag is reset, and for an upgrade already past the check.)", "quantifier": "all schedules", "why_tests_cant": "Races.", "anchors": ["server.go:Server.Close", "server.go:Server.start", "server.go:Server.Upgrade"]}
{"id": "C39", "title": "Connect wait on the server gives up after ten seconds", "statement": "A server side Connect to a client that never acknowledges returns a deadline error. (Violated: the countdown never hits zero exactly, the loop only ends when the connection is closed or acknowledged.)", "quantifier": "all numbers of iterations", "why_tests_cant": "Needs unbounded time.", "anchors": ["conn.go:Conn.Connect"]}
{"id": "C40", "title": "Connection store counters", "statement": "Increment and Decrement called from one goroutine return and store the value changed by one (starting from zero or overriding a non integer, wrapping at the limits of int) and touch no other key; concurrent calls may lose updates.", "quantifier": "all stores, keys and call sequences", "why_tests_cant": "All sequences; lost updates need races.", "anchors": ["conn.go:Conn.Increment", "conn.go:Conn.Decrement", "conn.go:Conn.Set", "conn.go:Conn.Get"]}
{"id": "C41", "title": "URL parameters as headers", "statement": "Exactly the query parameters whose canonical name starts with 'X-Websocket-Header-' and is longer become request headers named by the rest, with all their values in order; all other headers stay unchanged.", "quantifier": "all queries and headers", "why_tests_cant": "All query maps.", "anchors": ["server.go:tryParseURLParamsToHeaders"]}
{"id": "C42", "title": "Upgrade decisions", "statement": "A closed server rejects every request, a HEAD request is reported as a reconnection attempt, any other method than GET is rejected; only a GET request reaches the upgrader, and IsTryingToReconnect recognises exactly the HEAD answer.", "quantifier": "all methods and server states", "why_tests_cant": "All method strings.", "anchors": ["server.go:Server.Upgrade", "server.go:IsTryingToReconnect"]}
{"id": "C43", "title": "Combining stack exchanges", "statement": "With several exchanges publish, subscribe, unsubscribe and disconnect reach every one in registration order, publish reports success exactly if all succeeded, connect stops at the first error; Ask falls back to the next exchange with the same message. (The last part is violated: the fallback asks with the failed response instead of the request.)", "quantifier": "all lists of exchanges and their results", "why_tests_cant": "All lists and results.", "anchors": ["stackexchange.go:stackExchangeWrapper", "server.go:Server.UseStackExchange"]}
{"id": "C44", "title": "Routing through redis and nats", "statement": "A published message reaches exactly the connections subscribed to its namespace (or having the ID in To), subject to the Write rules; the explicit sender is excluded on whichever server it lives. (Exclusion by ID is violated: the excluded ID is not serialized.)", "quantifier": "all connection sets, namespaces and messages", "why_tests_cant": "Needs a cluster of servers.", "anchors": ["stackexchange/redis/stackexchange_redis.go:StackExchange", "stackexchange/nats/stackexchange_nats.go:StackExchange"]}
{"id": "C45", "title": "A remote peer cannot crash the process", "statement": "In every schedule and for all bytes received, no goroutine of the library panics, provided callbacks do not themselves return a CloseError without inner error, the application does not call Rooms or Broadcast on a NSConn that does not exist, and native-only connections are not disconnected by hand. (One exception: a process that calls Connect again while a reader still wakes up from waiting for an earlier Connect panics because a WaitGroup is reused too early; without local Connect calls nothing panics.)", "quantifier": "all schedules, payloads and callbacks built from API calls", "why_tests_cant": "All adversarial inputs and interleavings.", "anchors": ["conn.go", "conn_namespace.go", "waiter_once.go", "process.go"]}
{"id": "C46", "title": "Leaving or disconnecting everything terminates", "statement": "DisconnectAll and LeaveAll return. (Violated: with a broken socket they deadlock on their own lock; DisconnectAll also deadlocks with the reader if any event arrives before the reply.)", "quantifier": "all membership states", "why_tests_cant": "Deadlocks depend on timing and failures.", "anchors": ["conn.go:Conn.DisconnectAll", "conn_namespace.go:NSConn.LeaveAll", "conn.go:Conn.write"]}
{"id": "C47", "title": "Callbacks may use the API", "statement": "An OnRoomLeave or OnRoomLeft callback may look at, join and leave the rooms of its namespace. (Violated for forced leaves: the room lock is held while the callback runs, so such a callback blocks for ever.)", "quantifier": "all states with a joined room", "why_tests_cant": "Permanent blocks.", "anchors": ["conn_namespace.go:NSConn.forceLeaveAll"]}
{"id": "C48", "title": "Simultaneous connects", "statement": "Two overlapping connects of one connection to the same namespace yield one NSConn. (Violated: both succeed with different values, the connected event fires twice and the second replaces the first.)", "quantifier": "all schedules", "why_tests_cant": "Race.", "anchors": ["conn.go:Conn.askConnect", "conn.go:Conn.replyConnect"]}
{"id": "C49", "title": "End to end request and reply", "statement": "An Ask to a connected namespace whose remote callback replies with some bytes returns exactly these bytes; if the callback returns an error the Ask returns an error with the same text (a known error is returned as the identical value); if it returns nothing, no reply is sent.", "quantifier": "all safe names, bodies, errors, replies", "why_tests_cant": "All data.", "anchors": ["conn.go:Conn.Ask", "conn.go:Conn.handleMessage", "message.go"]}
{"id": "C50", "title": "End to end connect and join", "statement": "After a successful Connect (JoinRoom) both sides are connected (joined); after a failed one neither side changed; provided that a refusing remote callback returns an error with a text that is not a Reply and, for JoinRoom, that the local callback agrees. Without these provisos the two sides can end up disagreeing.", "quantifier": "all safe names and callback decisions on both sides", "why_tests_cant": "All combinations.", "anchors": ["conn.go:Conn.Connect", "conn_namespace.go:NSConn.JoinRoom"]}
{"id": "C51", "title": "Disconnect error classification", "statement": "IsCloseError, IsTimeoutError and IsDisconnectError classify error values as documented and a nil error is never a disconnect; a failed socket write closes the connection exactly if the error is a close error.", "quantifier": "all error values", "why_tests_cant": "All error values.", "anchors": ["event.go:IsCloseError", "event.go:IsTimeoutError", "event.go:IsDisconnectError", "conn.go:Conn.write"]}
{"id": "C52", "title": "Reading frames", "statement": "ReadData returns the first data frame of the stream unchanged with its type, skipping control and other frames, and reports an error exactly if a close frame or a failure comes first; no data frame is skipped or duplicated.", "quantifier": "all frame sequences", "why_tests_cant": "Unbounded streams.", "anchors": ["gobwas/socket.go:Socket.ReadData", "gorilla/socket.go:Socket.ReadData"]}
{"id": "C53", "title": "Reconnection tries", "statement": "A connection that was opened with the reconnection header, as a header or as the URL parameter X-Websocket-Header-X-Websocket-Reconnect, reports exactly that number as its ReconnectTries and WasReconnected exactly if it is positive; a value that is no number counts as no reconnection and never fails the upgrade.", "quantifier": "all requests: all header maps and queries", "why_tests_cant": "The header value is arbitrary client text.", "anchors": ["server.go:Server.Upgrade", "server.go:tryParseURLParamsToHeaders", "conn.go:Conn.WasReconnected"]}
{"id": "C55", "title": "Server.Do", "statement": "A function passed to Server.Do is called exactly once with every connection that is registered when the server loop takes it up, and with no other; functions are called in the order they are taken up. Without async, Do returns only after all these calls were made.", "quantifier": "all applications, histories and schedules", "why_tests_cant": "Unbounded histories and schedules.", "anchors": ["server.go:Server.Do", "server.go:Server.start"]}
{"id": "C54", "title": "A connection does not block itself", "statement": "Frames that arrive on a connection while one of its goroutines waits in Connect do not keep the connection from getting the answer: when the other side sends the answer, the reader gets to it, and Connect returns.", "quantifier": "all reachable states in which a goroutine waits in Connect and the reader handles a frame that came before the answer, and all continuations", "why_tests_cant": "The blocked state needs one order of frames out of many, and that it is for ever is a statement about all continuations.", "anchors": ["conn.go:Conn.askConnect", "conn.go:Conn.tryNamespace", "conn.go:Conn.handleMessage", "process.go:process.Wait"]}
{"id": "C56", "title": "Messages of a connection are handled in the order of their arrival, each at most once", "statement": "For every connection and each of the two kinds of frames (text, binary): the messages for which the callbacks of ordinary events (all events but the connect, disconnect, join and leave protocol) ran are messages that really arrived on that connection, in the order in which they arrived; none is handled twice, whether it arrived before or after the handshake. While the connection is open its handshake is completed at most once.", "quantifier": "every application (callbacks and goroutines that use the API in any way, but do not feed received data by hand), every content and number of frames, every schedule", "why_tests_cant": "A reordering or a duplicate needs a particular interleaving of the reader with the queue of the handshake, with Ask inside callbacks (which reads a frame by itself) and with Close; tests see a few interleavings of a few frames.", "anchors": ["conn.go:Conn.startReader", "conn.go:Conn.handleQueue", "conn.go:Conn.handleACK", "conn.go:Conn.HandlePayload", "conn.go:Conn.ask"]}
{"id": "C57", "title": "Nobody gets in without the consent of the callbacks", "statement": "A connection is connected to a namespace (in a room) only if the namespace is declared on that side and its OnNamespaceConnect (OnRoomJoin) callback, if there is one, was called for it and agreed. A namespace or room whose callback always refuses is never entered, whoever tries and from whichever side. Callbacks for the events of the application run only in namespaces the connection had been admitted to.", "quantifier": "every application (callbacks and goroutines that use the API in any way), all bytes received, every schedule", "why_tests_cant": "A bypass needs an interleaving of Connect, JoinRoom, requests of the other side, Disconnect and Close, or an answer the other side was not supposed to give; tests see a few.", "anchors": ["conn.go:Conn.askConnect", "conn.go:Conn.replyConnect", "conn_namespace.go:NSConn.askRoomJoin", "conn_namespace.go:NSConn.replyRoomJoin"]}
{"id": "C58", "title": "Emitting", "statement": "NSConn.Emit, EmitBinary and Room.Emit return true exactly if the namespace is connected (and the room joined) on an open connection, and then exactly one frame of the right type goes out, which the other side decodes to exactly that namespace, room, event and body. When the other side handles it, and has the namespace connected, its callback for that event runs exactly once with exactly that message; memberships do not change. With false nothing happens. NSConn.Ask gives exactly the bytes of the Reply, or the error, of that callback.", "quantifier": "all namespaces, rooms, events and bodies whose names survive the wire, all applications with pure callbacks on both sides, all states of the two connections", "why_tests_cant": "The result depends on all texts, on the membership on both sides and on what the remote callback returns.", "anchors": ["conn_namespace.go:NSConn.Emit", "conn_namespace.go:NSConn.EmitBinary", "conn_namespace.go:NSConn.Ask", "conn_room.go:Room.Emit", "conn.go:Conn.Write"]}
{"id": "C59", "title": "Queries", "statement": "Conn.Namespace, NSConn.Room and NSConn.Rooms tell exactly which namespaces are connected and which rooms are joined. Server.GetConnections contains, under its ID, every connection that the server has registered, and GetConnectionsByNamespace every one of them that has the namespace connected, with its NSConn. No query changes anything.", "quantifier": "all states, all numbers of connections, namespaces and rooms, all iteration orders of the maps", "why_tests_cant": "Map iteration order is random, and the answer is a function of the whole state.", "anchors": ["conn.go:Conn.Namespace", "conn_namespace.go:NSConn.Room", "conn_namespace.go:NSConn.Rooms", "server.go:Server.GetConnections", "server.go:Server.GetConnectionsByNamespace"]}
{"id": "C60", "title": "WaitConnect", "statement": "WaitConnect returns the error of its context once that is over, and otherwise the NSConn as soon as it finds the namespace connected and the handshake acknowledged; it sends nothing and connects nothing itself, and keeps looking until one of the two happens.", "quantifier": "all states, all contexts, all namespaces", "why_tests_cant": "It polls: what it returns depends on the state at each look.", "anchors": ["conn.go:Conn.WaitConnect"]}
{"id": "C61", "title": "Identity of a connection", "statement": "The ID of a server side connection is the one that the server's ID generator made for it, and the ID of a client the one that the server sent. Once the handshake is completed the ID never changes while the connection is open, whatever the other side sends.", "quantifier": "all applications, all frames of the other side, all schedules", "why_tests_cant": "The other side may send any bytes at any time, and other goroutines use the ID meanwhile.", "anchors": ["conn.go:Conn.ID", "conn.go:Conn.handleACK", "server.go:Server.Upgrade", "server.go:DefaultIDGenerator"]}
{"id": "C62", "title": "What LeaveAll and DisconnectAll do", "statement": "LeaveAll asks the peer once for every joined room, one room after the other; a room is left after the peer and then the own OnRoomLeave callback agreed, and its OnRoomLeft callback then runs. The first refusal ends the call and is its error; the rooms not yet left stay joined. It returns nil exactly if no room is left joined. DisconnectAll does the same with the connected namespaces, whose rooms are all left, and cannot be refused by the own callback. Other namespaces and connections are untouched, and no lock is kept.", "quantifier": "all applications of pure callbacks, all sets of rooms and namespaces, every order in which they are visited, all sequences of replies", "why_tests_cant": "The number of rooms and namespaces is unbounded, their order is that of a Go map, and the peer may answer anything.", "anchors": ["conn.go:Conn.DisconnectAll", "conn.go:Conn.askDisconnect", "conn_namespace.go:NSConn.LeaveAll", "conn_namespace.go:NSConn.askRoomLeave"]}
{"id": "C63", "title": "How a connection ends", "statement": "A connection that is open goes on reading: the goroutine that reads it stops, after a read error, a refused handshake or a bad handshake frame, only when the connection is closed. A Dial that returned an error has closed its connection. A closed connection stays closed for ever.", "quantifier": "all applications, all schedules, all frames of the other side and all failures", "why_tests_cant": "Every cause and moment of the end, in every interleaving with the other goroutines.", "anchors": ["conn.go:Conn.startReader", "conn.go:Conn.sendClientACK", "conn.go:Conn.Close", "client.go:Dial"]}
{"id": "C64", "title": "Careless use does not crash the process", "statement": "Using the API with what it returned does no harm: calls on the nil NSConn that a failed Connect returns, on a client's NSConn and on a connection that exchanges native messages only return a value or an error, and neither they nor the next frame panics.", "quantifier": "all worlds, contexts, event names, bodies and rooms", "why_tests_cant": "The states in which such a call is made cannot be listed.", "anchors": ["conn_namespace.go:NSConn.Emit", "conn_namespace.go:NSConn.Ask", "conn_namespace.go:NSConn.Rooms", "conn_namespace.go:NSConn.LeaveAll", "conn_namespace.go:NSConn.Disconnect", "server.go:Server.Broadcast", "conn.go:Conn.handleMessage"]}
{"id": "C65", "title": "Callbacks of the server may use the server", "statement": "OnDisconnect and the functions given to Server.Do may call any method of the server, such as Do, Broadcast, Ask and Close: the calls return, and the server goes on serving connections.", "quantifier": "all applications and schedules", "why_tests_cant": "The call blocks only in the goroutine of the server, and what it waits for depends on all other goroutines.", "anchors": ["server.go:Server.start", "server.go:Server.Do", "server.go:Server.Broadcast", "server.go:Server.Ask", "server.go:Server.Close"]}
{"id": "C66", "title": "Connected and disconnect events come in pairs", "statement": "For every namespace of a connection, OnNamespaceConnected is followed by exactly one OnNamespaceDisconnect when the connection ends, and OnNamespaceDisconnect is called only for a namespace that was connected.", "quantifier": "all applications, frames and schedules", "why_tests_cant": "The end of a connection can overlap with the handling of any message and with calls of other goroutines.", "anchors": ["conn.go:Conn.Close", "conn.go:Conn.replyConnect", "conn.go:Conn.replyDisconnect", "conn.go:Conn.askDisconnect"]}
{"id": "C67", "title": "The server keeps every open connection", "statement": "A connection that the server has registered stays registered, and takes part in every broadcast and every Do, until it is closed; OnDisconnect is called only for a connection that is closed (Conn.IsClosed returns true).", "quantifier": "all applications, frames and schedules", "why_tests_cant": "The connection is given up by messages between several goroutines, any of which may come at any time.", "anchors": ["server.go:Server.start", "conn.go:Conn.Close", "conn.go:Conn.IsClosed"]}
{"id": "C68", "title": "Messages stay among the admitted", "statement": "Whatever is emitted, broadcast or asked, every frame that goes out on a connection is part of the handshake, an empty reply, a message about connecting or disconnecting a namespace, or a message of a namespace that the connection was admitted to by its OnNamespaceConnect callback; a message for the members of a room goes out only on connections that were let into that room by OnRoomJoin.", "quantifier": "all applications, frames and schedules", "why_tests_cant": "Every goroutine may write at any time, and memberships change between the decision to send and the sending.", "anchors": ["conn.go:Conn.Write", "conn.go:Conn.canWrite", "conn.go:Conn.write", "server.go:Server.Broadcast", "server.go:publishMessages"]}
{"id": "C69", "title": "A closed connection leaves no goroutine behind", "statement": "When a connection has been closed, the goroutine that reads it, the one that delivers broadcasts to it and the one that an Ask inside a callback started end: none of them goes on waiting for the connection.", "quantifier": "all applications, frames and schedules", "why_tests_cant": "A leak is a goroutine that is never seen to end in any continuation.", "anchors": ["conn.go:Conn.startReader", "conn.go:Conn.Close", "server.go:Server.waitMessages", "broadcaster.go:broadcaster.waitUntilClosed"]}
{"id": "C70", "title": "Broadcasts from the callbacks of a delivery", "statement": "Broadcast may be called from any callback: it is taken over and returns, and the server goes on delivering broadcasts. (Violated: when the delivery of a broadcast fails, the callbacks for the end of that connection run while the broadcaster is locked; if one of them broadcasts, no broadcast is taken over or delivered any more.)", "quantifier": "all applications, states and schedules of a server without a StackExchange and with SyncBroadcaster off", "why_tests_cant": "It depends on which goroutine finds the broken connection, and the damage is that nothing happens in any continuation.", "anchors": ["broadcaster.go:broadcaster.broadcast", "broadcaster.go:broadcaster.waitUntilClosed", "server.go:Server.waitMessages", "server.go:Server.Broadcast", "conn.go:Conn.Close"]}
{"id": "C71", "title": "Events that report a membership are true", "statement": "The callbacks of OnNamespaceConnected, OnRoomJoined and OnRoomLeft are called only after the connection has connected to the namespace, joined the room or left it. (Violated: the remote side can send a frame with any of the three names, and the callback runs although nothing happened and although the application refuses the request itself.)", "quantifier": "all applications, states and frames", "why_tests_cant": "The frames come from a remote side that need not be this library, so no test that uses its client sends them.", "anchors": ["conn.go:Conn.handleMessage", "conn_namespace.go:NSConn.replyRoomJoin", "event.go:OnRoomJoined", "event.go:Events.fireEvent"]}
{"id": "C72", "title": "An Ask is not disturbed by callbacks of other goroutines", "statement": "An Ask that a goroutine of the application makes returns the reply to its own request, and no event is lost, also if callbacks of the same connection run at the same time. (Violated: what the code takes for being inside a callback is a flag of the connection, so the Ask takes away the next frame of the connection, whatever it is, and returns it.)", "quantifier": "all applications, frames and schedules", "why_tests_cant": "It needs the Ask to begin exactly while the reader is handling another message.", "anchors": ["conn.go:Conn.Ask", "conn.go:Conn.ask", "conn.go:Conn.startReader", "conn.go:Conn.isInsideHandler"]}
{"id": "C73", "title": "Timeouts of a handler apply", "statement": "The read and write timeouts given with a handler (WithTimeout, Struct.SetTimeouts) apply to every read and write of the connections that are made with it, also if it is joined with other handlers. (Violated: JoinConnHandlers forgets them, and a pointer to a WithTimeout has none.)", "quantifier": "all handlers, lists of joined handlers and times", "why_tests_cant": "Every combination of handlers is a different value; that there is no deadline shows only if a peer is silent for ever.", "anchors": ["conn_handler.go:getTimeouts", "conn_handler.go:JoinConnHandlers", "conn_handler.go:WithTimeout", "server.go:New", "client.go:Dial", "gobwas/socket.go:Socket.ReadData"]}
{"id": "C74", "title": "Namespace of a struct handler", "statement": "The namespace of a struct handler is the one given by SetNamespace, else the result of its method Namespace() string, else the value of its field Namespace as Go selects it, else empty. (Violated for a field of an embedded struct: the namespace is then a text made of the type's name.)", "quantifier": "all struct types and values", "why_tests_cant": "The struct types are arbitrary trees of embedded types.", "anchors": ["reflect.go:resolveStructNamespace", "conn_handler.go:Struct.GetNamespaces", "conn_handler.go:Struct.SetNamespace"]}
{"id": "C75", "title": "Connections that exchange native messages only", "statement": "On a connection whose handler declares nothing but OnNativeMessage, every non-empty frame, whatever its bytes, is given to the callback exactly once and in order, with exactly these bytes as the body; a native message that is written goes out as its body and nothing else; and a call that reports success has reached the other side. (The last part is violated by Ask and JoinRoom.)", "quantifier": "all frames and sequences of frames, all callbacks, all bodies, all undisturbed states of such a connection (for Ask: all states)", "why_tests_cant": "The bytes are arbitrary and include those that mean something in the protocol of neffos.", "anchors": ["conn.go:newConn", "conn.go:startReader", "conn.go:HandlePayload", "conn.go:handleMessage", "conn.go:ask", "conn_namespace.go:askRoomJoin", "message.go:serializeMessage"]}
{"id": "C76", "title": "Questions asked at the same moment", "statement": "Asks of different goroutines on one connection do not disturb each other: each returns the reply to its own question. (Violated if two are made at the same reading of the clock: they share a token, the later one gets the reply to the earlier question, and the earlier one none.)", "quantifier": "all undisturbed states of a connection with any number of Asks that wait, all questions", "why_tests_cant": "Whether two readings of the clock are equal depends on the schedule and the machine.", "anchors": ["conn.go:Ask", "conn.go:ask", "conn.go:handleMessage", "message.go:genWait"]}
{"id": "C77", "title": "Asking from the callback of an early message", "statement": "A callback may Ask the connection whose message it handles, whenever that message arrived: the reply is read and returned. (Violated for messages that arrived before the handshake: the only goroutine that reads the connection waits in the callback for a reply that nobody reads, so the Ask, the connection and the answer to the handshake are blocked for ever, in every continuation.)", "quantifier": "every application, every reachable state in which the reader waits so, all continuations", "why_tests_cant": "'Never goes on' cannot be observed by a test, and the state depends on the order in which frames arrive.", "anchors": ["conn.go:Conn.startReader", "conn.go:Conn.handleACK", "conn.go:Conn.handleQueue", "conn.go:Conn.Ask"]}
{"id": "C78", "title": "Any text may come before the handshake", "statement": "A frame that arrives at a server before the handshake of its connection and is no part of it is kept unchanged until the handshake, whatever text it is. (Violated for texts that begin with the letters H and A: the first closes the connection, of the second the rest becomes the ID of the connection and the text is lost.)", "quantifier": "all frames and sequences of frames, all undisturbed states of a connection before the handshake", "why_tests_cant": "Depends on the first byte of an arbitrary text and on the order of arrival.", "anchors": ["conn.go:Conn.startReader", "conn.go:Conn.handleACK"]}
{"id": "C79", "title": "Registering a struct does not panic", "statement": "Registering a struct handler never panics, whatever the types and values of its fields. (Violated for structs with an NSConn field: by an unexported field whose type has a method IsZero() bool, such as time.Time, and by fields whose method IsZero has no result or one that is not a bool.)", "quantifier": "all structs: fields, nesting of structs and arrays, values, methods and event matchers", "why_tests_cant": "Structs nest to any depth and their types may have any methods.", "anchors": ["reflect.go:isZero", "reflect.go:getNonZeroFields", "reflect.go:makeEventsFromStruct"]}
{"id": "C80", "title": "The stack exchange is told the end of every connection", "statement": "When a connection that the stack exchange was told of has ended, the exchange is told of the end too, so that it can release what it holds for the connection. (Violated for connections that were not accepted, if the server has an OnDisconnect callback and FireDisconnectAlways is not set.)", "quantifier": "every server, every state in which the server takes up the end of a connection, every OnDisconnect callback", "why_tests_cant": "Depends on the verdict of OnConnect, on the configuration and on the order of events; the leak has no visible effect at once.", "anchors": ["server.go:Server.start", "server.go:Server.Upgrade", "stackexchange.go:StackExchange"]}
{"id": "C81", "title": "A broadcast excludes only its own sender", "statement": "Broadcast(sender, slice...) excludes the given sender and nobody else, whatever was done before with the slice of messages. (Violated: Broadcast writes the exclusion into the slice, so a slice broadcast with a connection as sender and later without a sender, or with an Exclude value, still excludes that connection.)", "quantifier": "all slices of messages, all senders, all servers and states, every continuation of the calling program", "why_tests_cant": "Depends on the history of the slice; each call by itself behaves well.", "anchors": ["server.go:Server.Broadcast", "conn.go:Conn.Write", "server.go:publishMessages"]}
