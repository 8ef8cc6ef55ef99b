# ---------------------------------------------------------------- wire format
p("C01","Wire round trip of a message",
  "Serializing a (non native) message and deserializing the bytes yields the same wait token, namespace, room, event, no-op flag, body or error, for every message whose namespace, room and event survive escaping (C02), whose wait token has no separator and is not in one of the two reserved forms, and whose error text is not empty.",
  "all messages: all namespaces, rooms, events, bodies, errors, wait tokens, and all lists of registered known errors",
  "The fields are arbitrary byte strings that may contain the separator, the escape text or pieces of it; a test fixes a handful of literals.",
  ["message.go:serializeMessage","message.go:DeserializeMessage","message.go:serializeOutput","message.go:deserializeInput"])
p("C02","Exactly which names survive the wire",
  "A namespace, room or event name is received as it was sent if and only if it contains neither '@%!semicolon@%!' nor '@%!semicolon;'. In particular the documented belief that only the full replacement text is dangerous is false.",
  "all byte strings",
  "The exact set of safe names is an infinite language; the overlap of the escape text with itself (its prefix equals its suffix) is only visible when all strings are considered.",
  ["message.go:escape","message.go:unescape","message.go:messageFieldSeparatorReplacement"])
p("C03","Names cannot inject fields",
  "Whatever the namespace, room, event and body contain (safe or not), the receiver splits the serialized message into the same seven fields: token, no-op flag, error flag and body arrive unchanged and each name arrives as the unescaped form of its own escaped text only.",
  "all messages with a token free of the separator",
  "Injection freedom is a statement about every adversarial name.",
  ["message.go:serializeOutput","message.go:deserializeInput","message.go:escape"])
p("C04","Errors and replies on the wire",
  "A callback error that is a Reply reaches the other side as a plain body without error; any other error with non empty text reaches it as an error with that text and the body is dropped; if a registered known error resolves or equals the text, the first such registered value is delivered, otherwise a fresh error with the text. An error with empty text is received as success.",
  "all errors, all texts, all lists of known errors",
  "Depends on every text and on the order of an unbounded registration list.",
  ["message.go:resolveError","message.go:RegisterKnownError","event.go:Reply","event.go:isReply","message.go:deserializeInput"])
p("C05","Decoding is total and rejects exactly the malformed payloads",
  "DeserializeMessage never fails on any bytes; the result is invalid exactly if the payload is empty or (when native messages are not allowed) has fewer than six separators; otherwise the seven fields joined with the separator give the payload back.",
  "all byte strings and all four native-mode flag combinations",
  "Every remote byte string must be covered; fuzzing samples.",
  ["message.go:DeserializeMessage","message.go:deserializeInput"])
p("C06","Native messages round trip",
  "A native message body sent without a wait token is delivered unchanged to OnNativeMessage exactly if it is non empty and either the receiver handles only native messages or allows them and the body has fewer than six separators.",
  "all bodies and receiver modes",
  "The boundary is a count over arbitrary bodies.",
  ["message.go:serializeMessage","message.go:deserializeInput"])
p("C07","When serialization panics",
  "Serialize panics exactly if (outside the native shortcut) both a wait token and an explicit sender are set, or the error is a CloseError without inner error; Conn.Write never triggers the first panic, whatever the message.",
  "all messages",
  "Panic freedom quantifies over all field combinations.",
  ["message.go:serializeMessage","conn.go:Conn.Write","event.go:CloseError.Error"])
p("C08","Wait tokens",
  "Tokens generated by a client never equal tokens generated by a server; tokens generated at different clock values differ; generated tokens travel over the wire unchanged; a server never treats a client request as a reply and a client treats its own tokens as replies.",
  "all clock values (64 bit) and both sides",
  "All pairs of times must be considered.",
  ["message.go:genWait","message.go:Message.IsWait","message.go:DeserializeMessage"])
p("C09","Scale-out ask token is recognised on the way back",
  "The token produced for Server.Ask over a StackExchange is recognised by the receiving server as coming from a StackExchange. (Violated: the code adds the marker to the first byte instead of inserting it, so no generated token is ever recognised.)",
  "all clock values",
  "The failure needs a redis or nats deployment and holds for every token, tests cover only the single-server path.",
  ["message.go:genWaitStackExchange","message.go:DeserializeMessage","server.go:Server.Ask","conn.go:Conn.handleMessage"])
p("C10","Empty replies mean success",
  "The byte string a side writes to acknowledge connect, disconnect, join and leave decodes, for every token, to a message with exactly that token, no error and empty fields, so the asking call returns without error.",
  "all tokens generated by either side",
  "All tokens.",
  ["message.go:genEmptyReplyToWait","conn.go:Conn.writeEmptyReply"])
# ---------------------------------------------------------------- handlers
p("C11","Joining handlers",
  "After JoinConnHandlers the callback for a namespace and event is the one of the last handler that defines it, undefined pairs stay undefined, and the given handlers are not modified.",
  "all lists of handlers, namespaces and events",
  "Unbounded lists of maps.",
  ["conn_handler.go:JoinConnHandlers","conn_handler.go:WithTimeout.GetNamespaces"])
p("C12","Event dispatch",
  "An incoming event runs the callback registered for exactly that event, otherwise the OnAnyEvent callback, otherwise nothing; at most one callback runs.",
  "all event maps and messages",
  "All maps and names.",
  ["conn_handler.go:Events.fireEvent"])
p("C13","Struct handlers: event names",
  "Methods named like a system event are registered as that system event whatever the matcher says; any other method is registered under the name the matcher gives, or not at all if it rejects it. OnAnyEvent and OnNativeMessage methods are not mapped to the special events.",
  "all method sets and matchers",
  "All method sets and arbitrary matcher functions.",
  ["reflect.go:makeEventFromMethod","reflect.go:makeEventsFromStruct","event.go:IsSystemEvent"])
p("C14","Struct handlers: one controller per connection",
  "With a dynamic struct (all of whose fields are exported and whose registered NSConn field is nil) every connected namespace gets its own controller value whose NSConn field is that connection and whose other non zero fields are copies of the registered ones; callbacks of one connection never see the controller of another.",
  "all histories of connects and events",
  "Isolation over all histories.",
  ["reflect.go:makeEventsFromStruct","reflect.go:getNonZeroFields"])
# ---------------------------------------------------------------- connection protocol
p("C15","Namespace admission by the remote side",
  "A connect request is answered positively and the namespace becomes connected exactly if it is declared and its OnNamespaceConnect callback returns no error; a refusal carries the error back and leaves the connection not connected; an already connected namespace is acknowledged without firing events again; nothing else changes.",
  "all requests, handler maps and connection states",
  "All states and requests.",
  ["conn.go:Conn.replyConnect","conn.go:Conn.notifyNamespaceConnected"])
p("C16","Namespace disconnection by the remote side",
  "On the server a disconnect request is refused exactly if the callback returns an error (then membership is unchanged); on a client it always succeeds. On success all rooms of the namespace are left with forced leave and left events first, the namespace is no longer connected and exactly one empty reply is written.",
  "all requests, room sets, iteration orders and handler results",
  "All room sets and map iteration orders.",
  ["conn.go:Conn.replyDisconnect","conn_namespace.go:NSConn.forceLeaveAll"])
p("C17","Room join and leave by the remote side",
  "A join request makes the connection a member exactly if OnRoomJoin returns no error; a leave request removes it exactly if (on the server) OnRoomLeave returns no error; joining twice and leaving a not joined room are acknowledged without events; other rooms and namespaces are untouched; each request gets exactly one answer.",
  "all requests, room sets, handler results",
  "All states.",
  ["conn_namespace.go:NSConn.replyRoomJoin","conn_namespace.go:NSConn.replyRoomLeave"])
p("C18","What Write lets through",
  "Write puts bytes on the wire exactly if the connection is open, the message is a connect or disconnect or its namespace is connected and, for a non empty room (except for join and left messages), that room is joined, and the explicit sender is not this connection; the bytes are the serialized message with the explicit sender removed.",
  "all messages and connection states",
  "All combinations.",
  ["conn.go:Conn.canWrite","conn.go:Conn.Write","conn.go:Conn.Is"])
p("C19","Membership follows the protocol",
  "Processing any sequence of incoming messages changes the connected namespaces and joined rooms of a connection exactly as a simple membership specification says (connect adds, disconnect removes with all rooms, join and leave change one room, every other message changes nothing).",
  "all sequences of incoming payloads, all handler decisions",
  "Unbounded histories.",
  ["conn.go:Conn.handleMessage","conn.go:Conn.HandlePayload"])
p("C20","A request for a namespace that is not connected gets an answer",
  "A request (Ask, join, leave) for a namespace that the receiving side is not connected to is answered with a bad namespace error. (Violated: the answer is discarded by the write check for every such request, so the asker gets no answer.)",
  "all requests and states",
  "Needs asymmetric connection state; holds for all of them.",
  ["conn.go:Conn.tryNamespace","conn.go:Conn.canWrite"])
p("C21","Close",
  "Close fires, for every connected namespace and each of its rooms, the forced leave, left and disconnect events exactly once and in this order, leaves nothing connected or joined, and a second Close does nothing.",
  "all membership states and iteration orders",
  "All states and map orders.",
  ["conn.go:Conn.Close","conn_namespace.go:NSConn.forceLeaveAll"])
p("C22","Local connect, disconnect, join and leave",
  "Connect, Disconnect, JoinRoom and Leave called locally change local membership exactly if the remote side answered without error (and, for join and leave, the local callback agreed); on any error local membership is unchanged.",
  "all states, replies and handler results",
  "All replies and states.",
  ["conn.go:Conn.askConnect","conn.go:Conn.askDisconnect","conn_namespace.go:NSConn.askRoomJoin","conn_namespace.go:NSConn.askRoomLeave"])
p("C23","Ask correlation",
  "An Ask that is not made inside an event callback only ever returns a message that carries the token of its own request, in every interleaving of any number of concurrent asks, readers and remote behaviour.",
  "all schedules, all remote behaviours",
  "All interleavings of unboundedly many goroutines.",
  ["conn.go:Conn.ask","conn.go:Conn.handleMessage"])
p("C24","Ask leaves nothing behind",
  "After Ask returns no waiter for its token remains registered. (Holds when a reply arrived; violated when the context expired or the write failed: the entry stays until the connection is closed.)",
  "all outcomes of Ask",
  "A leak is invisible to a functional test.",
  ["conn.go:Conn.ask"])
p("C25","Ask returns when the connection closes",
  "A pending Ask returns with an error once the connection is closed. (Violated: Close only forgets the waiter, an Ask whose context has no deadline blocks for ever in every continuation.)",
  "all continuations after Close",
  "'Never returns' cannot be observed by a test.",
  ["conn.go:Conn.ask","conn.go:Conn.Close"])
p("C26","Ask inside a callback",
  "An Ask made inside an event callback returns the reply to its own request. (Violated: it returns whatever message arrives next, and that message is not dispatched.)",
  "all schedules and remote behaviours",
  "Depends on message order.",
  ["conn.go:Conn.ask","conn.go:Conn.startReader"])
p("C27","A late reply does not stop the connection",
  "A reply that arrives after its asker has given up does not block the connection's reader. (Holds for the first late reply to Conn.Ask; violated by Server.Ask, whose channel is unbuffered: the reader blocks for ever.)",
  "all schedules",
  "A permanent block is not observable by a test with a timeout.",
  ["server.go:Server.Ask","conn.go:Conn.handleMessage","conn.go:Conn.ask"])
p("C28","Requests are never taken for replies",
  "A request generated by the remote side is never consumed by a pending local Ask.",
  "all pending sets and all clock values",
  "All tokens.",
  ["conn.go:Conn.handleMessage","message.go:Message.IsWait","message.go:genWait"])
p("C29","Handshake agreement",
  "Dial returns without error only after the server accepted the connection, and then the client ID equals the ID the server generated; if OnConnect fails before anything was written, Dial returns an error with the same text. (Violated in two cases: an OnConnect that writes first and fails afterwards does not reject the connection, and a peer that answers the first frame with the same frame makes Dial succeed without any acceptance.)",
  "all IDs and error texts",
  "All byte strings and orders.",
  ["conn.go:Conn.handleACK","conn.go:Conn.sendClientACK","server.go:Server.Upgrade","client.go:Dial"])
p("C30","Nothing is handled before the handshake",
  "In every schedule no event callback runs because of a remote message before the server side accepted the connection; messages received earlier by a server are handled later, in arrival order per message type. (Text and binary messages may be reordered; a client never handles messages that arrived before its acknowledgment. The first part is violated: a peer that sends the server acknowledgment itself is treated as accepted, with an ID of its choice, even if OnConnect refused it.)",
  "all schedules and message sequences",
  "All interleavings.",
  ["conn.go:Conn.startReader","conn.go:Conn.handleACK","conn.go:Conn.handleQueue"])
p("C31","Readiness gate",
  "The readiness gate never panics with a single waiter, lets nobody through before it is opened, keeps its first result when opened sequentially, and lets the waiter through once opened. (The last part is violated: an open between the check and the lock is missed and the waiter blocks for ever.)",
  "all schedules of one waiter and any number of openers",
  "The race window is a few instructions.",
  ["waiter_once.go:waiterOnce.wait","waiter_once.go:waiterOnce.unwait"])
p("C32","Namespace processes",
  "A message for a namespace that is being connected waits until the connect is done. (Holds for the first connect; violated afterwards: later connects do not block, two overlapping connects block a waiting reader for ever.)",
  "all schedules",
  "Race windows and permanent blocks.",
  ["process.go:process","process.go:processes.get","conn.go:Conn.tryNamespace"])
# ---------------------------------------------------------------- broadcast
p("C33","Asynchronous broadcast",
  "In every schedule a connection only receives batches that were broadcast, never an older batch after a newer one, and at most as many batches as were broadcast; an undisturbed waiting connection receives a broadcast exactly once. (Exactly-once in general is violated: a batch can be lost or delivered twice.)",
  "all schedules, any number of broadcasts and connections",
  "Loss and duplication depend on scheduling.",
  ["broadcaster.go:broadcaster.broadcast","broadcaster.go:broadcaster.waitUntilClosed","server.go:Server.waitMessages"])
p("C34","Synchronous broadcast",
  "With SyncBroadcaster every broadcast batch is offered to every registered connection exactly once and in the order the broadcasts were accepted.",
  "all sequences of server loop events",
  "Unbounded histories.",
  ["server.go:Server.start","server.go:publishMessages"])
p("C35","Who receives a broadcast message",
  "For a broadcast of one message, an open connection gets it exactly if its ID is not the excluded ID, the To field is empty or equals its ID, and it passes the Write rules (C18). For several messages in one call the same holds for each. (The second part is violated: the first message not meant for a connection also suppresses all later ones.)",
  "all messages, all connection sets",
  "All combinations.",
  ["server.go:publishMessages","server.go:Server.Broadcast"])
p("C36","Broadcast exclusion",
  "Broadcasting with a Conn or NSConn as sender excludes exactly that connection; with any other stringer (Room, Exclude) it excludes all connections having that ID.",
  "all connection sets, including several connections with one ID",
  "All sets of IDs.",
  ["server.go:Server.Broadcast","server.go:publishMessages","conn.go:Conn.Is"])
# ---------------------------------------------------------------- server
p("C37","Connection registry",
  "In every history GetTotalConnections equals the number of registered connections, and OnDisconnect is called at most once per connection and only for a connection that was registered. (That a closed connection is eventually unregistered is violated: its disconnect signal may be consumed before its connect signal.)",
  "all histories and schedules",
  "Unbounded histories.",
  ["server.go:Server.start","server.go:Server.GetTotalConnections"])
p("C38","Server close",
  "After Server.Close returns new upgrades are rejected and every registered connection is closed. (Violated for a server closed before its loop has started, whose closed flag is reset, and for an upgrade already past the check.)",
  "all schedules",
  "Races.",
  ["server.go:Server.Close","server.go:Server.start","server.go:Server.Upgrade"])
p("C39","Connect wait on the server gives up after ten seconds",
  "A server side Connect to a client that never acknowledges returns a deadline error. (Violated: the countdown never hits zero exactly, the loop only ends when the connection is closed or acknowledged.)",
  "all numbers of iterations",
  "Needs unbounded time.",
  ["conn.go:Conn.Connect"])
p("C40","Connection store counters",
  "Increment and Decrement called from one goroutine return and store the value changed by one (starting from zero or overriding a non integer, wrapping at the limits of int) and touch no other key; concurrent calls may lose updates.",
  "all stores, keys and call sequences",
  "All sequences; lost updates need races.",
  ["conn.go:Conn.Increment","conn.go:Conn.Decrement","conn.go:Conn.Set","conn.go:Conn.Get"])
p("C41","URL parameters as headers",
  "Exactly the query parameters whose canonical name starts with 'X-Websocket-Header-' and is longer become request headers named by the rest, with all their values in order; all other headers stay unchanged.",
  "all queries and headers",
  "All query maps.",
  ["server.go:tryParseURLParamsToHeaders"])
p("C42","Upgrade decisions",
  "A closed server rejects every request, a HEAD request is reported as a reconnection attempt, any other method than GET is rejected; only a GET request reaches the upgrader, and IsTryingToReconnect recognises exactly the HEAD answer.",
  "all methods and server states",
  "All method strings.",
  ["server.go:Server.Upgrade","server.go:IsTryingToReconnect"])
# ---------------------------------------------------------------- scale out
p("C43","Combining stack exchanges",
  "With several exchanges publish, subscribe, unsubscribe and disconnect reach every one in registration order, publish reports success exactly if all succeeded, connect stops at the first error; Ask falls back to the next exchange with the same message. (The last part is violated: the fallback asks with the failed response instead of the request.)",
  "all lists of exchanges and their results",
  "All lists and results.",
  ["stackexchange.go:stackExchangeWrapper","server.go:Server.UseStackExchange"])
p("C44","Routing through redis and nats",
  "A published message reaches exactly the connections subscribed to its namespace (or having the ID in To), subject to the Write rules; the explicit sender is excluded on whichever server it lives. (Exclusion by ID is violated: the excluded ID is not serialized.)",
  "all connection sets, namespaces and messages",
  "Needs a cluster of servers.",
  ["stackexchange/redis/stackexchange_redis.go:StackExchange","stackexchange/nats/stackexchange_nats.go:StackExchange"])
# ---------------------------------------------------------------- crash and deadlock freedom
p("C45","A remote peer cannot crash the process",
  "In every schedule and for all bytes received, no goroutine of the library panics, provided callbacks do not themselves return a CloseError without inner error, the application does not call Rooms or Broadcast on a NSConn that does not exist, and native-only connections are not disconnected by hand. (One exception: a process that calls Connect again while a reader still wakes up from waiting for an earlier Connect panics because a WaitGroup is reused too early; without local Connect calls nothing panics.)",
  "all schedules, payloads and callbacks built from API calls",
  "All adversarial inputs and interleavings.",
  ["conn.go","conn_namespace.go","waiter_once.go","process.go"])
p("C46","Leaving or disconnecting everything terminates",
  "DisconnectAll and LeaveAll return. (Violated: with a broken socket they deadlock on their own lock; DisconnectAll also deadlocks with the reader if any event arrives before the reply.)",
  "all membership states",
  "Deadlocks depend on timing and failures.",
  ["conn.go:Conn.DisconnectAll","conn_namespace.go:NSConn.LeaveAll","conn.go:Conn.write"])
p("C47","Callbacks may use the API",
  "An OnRoomLeave or OnRoomLeft callback may look at, join and leave the rooms of its namespace. (Violated for forced leaves: the room lock is held while the callback runs, so such a callback blocks for ever.)",
  "all states with a joined room",
  "Permanent blocks.",
  ["conn_namespace.go:NSConn.forceLeaveAll"])
p("C48","Simultaneous connects",
  "Two overlapping connects of one connection to the same namespace yield one NSConn. (Violated: both succeed with different values, the connected event fires twice and the second replaces the first.)",
  "all schedules",
  "Race.",
  ["conn.go:Conn.askConnect","conn.go:Conn.replyConnect"])
p("C49","End to end request and reply",
  "An Ask to a connected namespace whose remote callback replies with some bytes returns exactly these bytes; if the callback returns an error the Ask returns an error with the same text (a known error is returned as the identical value); if it returns nothing, no reply is sent.",
  "all safe names, bodies, errors, replies",
  "All data.",
  ["conn.go:Conn.Ask","conn.go:Conn.handleMessage","message.go"])
p("C50","End to end connect and join",
  "After a successful Connect (JoinRoom) both sides are connected (joined); after a failed one neither side changed; provided that a refusing remote callback returns an error with a text that is not a Reply and, for JoinRoom, that the local callback agrees. Without these provisos the two sides can end up disagreeing.",
  "all safe names and callback decisions on both sides",
  "All combinations.",
  ["conn.go:Conn.Connect","conn_namespace.go:NSConn.JoinRoom"])
p("C51","Disconnect error classification",
  "IsCloseError, IsTimeoutError and IsDisconnectError classify error values as documented and a nil error is never a disconnect; a failed socket write closes the connection exactly if the error is a close error.",
  "all error values",
  "All error values.",
  ["event.go:IsCloseError","event.go:IsTimeoutError","event.go:IsDisconnectError","conn.go:Conn.write"])
p("C52","Reading frames",
  "ReadData returns the first data frame of the stream unchanged with its type, skipping control and other frames, and reports an error exactly if a close frame or a failure comes first; no data frame is skipped or duplicated.",
  "all frame sequences",
  "Unbounded streams.",
  ["gobwas/socket.go:Socket.ReadData","gorilla/socket.go:Socket.ReadData"])
p("C53","Reconnection tries",
  "A connection that was opened with the reconnection header, as a header or as the URL parameter X-Websocket-Header-X-Websocket-Reconnect, reports exactly that number as its ReconnectTries and WasReconnected exactly if it is positive; a value that is no number counts as no reconnection and never fails the upgrade.",
  "all requests: all header maps and queries",
  "The header value is arbitrary client text.",
  ["server.go:Server.Upgrade","server.go:tryParseURLParamsToHeaders","conn.go:Conn.WasReconnected"])
p("C55","Server.Do",
  "A function passed to Server.Do is called exactly once with every connection that is registered when the server loop takes it up, and with no other; functions are called in the order they are taken up. Without async, Do returns only after all these calls were made.",
  "all applications, histories and schedules",
  "Unbounded histories and schedules.",
  ["server.go:Server.Do","server.go:Server.start"])
p("C54","A connection does not block itself",
  "Frames that arrive on a connection while one of its goroutines waits in Connect do not keep the connection from getting the answer: when the other side sends the answer, the reader gets to it, and Connect returns.",
  "all reachable states in which a goroutine waits in Connect and the reader handles a frame that came before the answer, and all continuations",
  "The blocked state needs one order of frames out of many, and that it is for ever is a statement about all continuations.",
  ["conn.go:Conn.askConnect","conn.go:Conn.tryNamespace","conn.go:Conn.handleMessage","process.go:process.Wait"])
p("C56","Messages of a connection are handled in the order of their arrival, each at most once",
  "For every connection and each of the two kinds of frames (text, binary): the messages for which the callbacks of ordinary events (all events but the connect, disconnect, join and leave protocol) ran are messages that really arrived on that connection, in the order in which they arrived; none is handled twice, whether it arrived before or after the handshake. While the connection is open its handshake is completed at most once.",
  "every application (callbacks and goroutines that use the API in any way, but do not feed received data by hand), every content and number of frames, every schedule",
  "A reordering or a duplicate needs a particular interleaving of the reader with the queue of the handshake, with Ask inside callbacks (which reads a frame by itself) and with Close; tests see a few interleavings of a few frames.",
  ["conn.go:Conn.startReader","conn.go:Conn.handleQueue","conn.go:Conn.handleACK","conn.go:Conn.HandlePayload","conn.go:Conn.ask"])
p("C57","Nobody gets in without the consent of the callbacks",
  "A connection is connected to a namespace (in a room) only if the namespace is declared on that side and its OnNamespaceConnect (OnRoomJoin) callback, if there is one, was called for it and agreed. A namespace or room whose callback always refuses is never entered, whoever tries and from whichever side. Callbacks for the events of the application run only in namespaces the connection had been admitted to.",
  "every application (callbacks and goroutines that use the API in any way), all bytes received, every schedule",
  "A bypass needs an interleaving of Connect, JoinRoom, requests of the other side, Disconnect and Close, or an answer the other side was not supposed to give; tests see a few.",
  ["conn.go:Conn.askConnect","conn.go:Conn.replyConnect","conn_namespace.go:NSConn.askRoomJoin","conn_namespace.go:NSConn.replyRoomJoin"])

p("C58","Emitting",
  "NSConn.Emit, EmitBinary and Room.Emit return true exactly if the namespace is connected (and the room joined) on an open connection, and then exactly one frame of the right type goes out, which the other side decodes to exactly that namespace, room, event and body. When the other side handles it, and has the namespace connected, its callback for that event runs exactly once with exactly that message; memberships do not change. With false nothing happens. NSConn.Ask gives exactly the bytes of the Reply, or the error, of that callback.",
  "all namespaces, rooms, events and bodies whose names survive the wire, all applications with pure callbacks on both sides, all states of the two connections",
  "The result depends on all texts, on the membership on both sides and on what the remote callback returns.",
  ["conn_namespace.go:NSConn.Emit","conn_namespace.go:NSConn.EmitBinary","conn_namespace.go:NSConn.Ask","conn_room.go:Room.Emit","conn.go:Conn.Write"])
p("C59","Queries",
  "Conn.Namespace, NSConn.Room and NSConn.Rooms tell exactly which namespaces are connected and which rooms are joined. Server.GetConnections contains, under its ID, every connection that the server has registered, and GetConnectionsByNamespace every one of them that has the namespace connected, with its NSConn. No query changes anything.",
  "all states, all numbers of connections, namespaces and rooms, all iteration orders of the maps",
  "Map iteration order is random, and the answer is a function of the whole state.",
  ["conn.go:Conn.Namespace","conn_namespace.go:NSConn.Room","conn_namespace.go:NSConn.Rooms","server.go:Server.GetConnections","server.go:Server.GetConnectionsByNamespace"])
p("C60","WaitConnect",
  "WaitConnect returns the error of its context once that is over, and otherwise the NSConn as soon as it finds the namespace connected and the handshake acknowledged; it sends nothing and connects nothing itself, and keeps looking until one of the two happens.",
  "all states, all contexts, all namespaces",
  "It polls: what it returns depends on the state at each look.",
  ["conn.go:Conn.WaitConnect"])
p("C61","Identity of a connection",
  "The ID of a server side connection is the one that the server's ID generator made for it, and the ID of a client the one that the server sent. Once the handshake is completed the ID never changes while the connection is open, whatever the other side sends.",
  "all applications, all frames of the other side, all schedules",
  "The other side may send any bytes at any time, and other goroutines use the ID meanwhile.",
  ["conn.go:Conn.ID","conn.go:Conn.handleACK","server.go:Server.Upgrade","server.go:DefaultIDGenerator"])
p("C62","What LeaveAll and DisconnectAll do",
  "LeaveAll asks the peer once for every joined room, one room after the other; a room is left after the peer and then the own OnRoomLeave callback agreed, and its OnRoomLeft callback then runs. The first refusal ends the call and is its error; the rooms not yet left stay joined. It returns nil exactly if no room is left joined. DisconnectAll does the same with the connected namespaces, whose rooms are all left, and cannot be refused by the own callback. Other namespaces and connections are untouched, and no lock is kept.",
  "all applications of pure callbacks, all sets of rooms and namespaces, every order in which they are visited, all sequences of replies",
  "The number of rooms and namespaces is unbounded, their order is that of a Go map, and the peer may answer anything.",
  ["conn.go:Conn.DisconnectAll","conn.go:Conn.askDisconnect","conn_namespace.go:NSConn.LeaveAll","conn_namespace.go:NSConn.askRoomLeave"])
p("C63","How a connection ends",
  "A connection that is open goes on reading: the goroutine that reads it stops, after a read error, a refused handshake or a bad handshake frame, only when the connection is closed. A Dial that returned an error has closed its connection. A closed connection stays closed for ever.",
  "all applications, all schedules, all frames of the other side and all failures",
  "Every cause and moment of the end, in every interleaving with the other goroutines.",
  ["conn.go:Conn.startReader","conn.go:Conn.sendClientACK","conn.go:Conn.Close","client.go:Dial"])
p("C64","Careless use does not crash the process",
  "Using the API with what it returned does no harm: calls on the nil NSConn that a failed Connect returns, on a client's NSConn and on a connection that exchanges native messages only return a value or an error, and neither they nor the next frame panics.",
  "all worlds, contexts, event names, bodies and rooms",
  "The states in which such a call is made cannot be listed.",
  ["conn_namespace.go:NSConn.Emit","conn_namespace.go:NSConn.Ask","conn_namespace.go:NSConn.Rooms","conn_namespace.go:NSConn.LeaveAll","conn_namespace.go:NSConn.Disconnect","server.go:Server.Broadcast","conn.go:Conn.handleMessage"])
p("C65","Callbacks of the server may use the server",
  "OnDisconnect and the functions given to Server.Do may call any method of the server, such as Do, Broadcast, Ask and Close: the calls return, and the server goes on serving connections.",
  "all applications and schedules",
  "The call blocks only in the goroutine of the server, and what it waits for depends on all other goroutines.",
  ["server.go:Server.start","server.go:Server.Do","server.go:Server.Broadcast","server.go:Server.Ask","server.go:Server.Close"])
p("C66","Connected and disconnect events come in pairs",
  "For every namespace of a connection, OnNamespaceConnected is followed by exactly one OnNamespaceDisconnect when the connection ends, and OnNamespaceDisconnect is called only for a namespace that was connected.",
  "all applications, frames and schedules",
  "The end of a connection can overlap with the handling of any message and with calls of other goroutines.",
  ["conn.go:Conn.Close","conn.go:Conn.replyConnect","conn.go:Conn.replyDisconnect","conn.go:Conn.askDisconnect"])
p("C67","The server keeps every open connection",
  "A connection that the server has registered stays registered, and takes part in every broadcast and every Do, until it is closed; OnDisconnect is called only for a connection that is closed (Conn.IsClosed returns true).",
  "all applications, frames and schedules",
  "The connection is given up by messages between several goroutines, any of which may come at any time.",
  ["server.go:Server.start","conn.go:Conn.Close","conn.go:Conn.IsClosed"])
p("C68","Messages stay among the admitted",
  "Whatever is emitted, broadcast or asked, every frame that goes out on a connection is part of the handshake, an empty reply, a message about connecting or disconnecting a namespace, or a message of a namespace that the connection was admitted to by its OnNamespaceConnect callback; a message for the members of a room goes out only on connections that were let into that room by OnRoomJoin.",
  "all applications, frames and schedules",
  "Every goroutine may write at any time, and memberships change between the decision to send and the sending.",
  ["conn.go:Conn.Write","conn.go:Conn.canWrite","conn.go:Conn.write","server.go:Server.Broadcast","server.go:publishMessages"])
p("C69","A closed connection leaves no goroutine behind",
  "When a connection has been closed, the goroutine that reads it, the one that delivers broadcasts to it and the one that an Ask inside a callback started end: none of them goes on waiting for the connection.",
  "all applications, frames and schedules",
  "A leak is a goroutine that is never seen to end in any continuation.",
  ["conn.go:Conn.startReader","conn.go:Conn.Close","server.go:Server.waitMessages","broadcaster.go:broadcaster.waitUntilClosed"])
p("C70","Broadcasts from the callbacks of a delivery",
  "Broadcast may be called from any callback: it is taken over and returns, and the server goes on delivering broadcasts. (Violated: when the delivery of a broadcast fails, the callbacks for the end of that connection run while the broadcaster is locked; if one of them broadcasts, no broadcast is taken over or delivered any more.)",
  "all applications, states and schedules of a server without a StackExchange and with SyncBroadcaster off",
  "It depends on which goroutine finds the broken connection, and the damage is that nothing happens in any continuation.",
  ["broadcaster.go:broadcaster.broadcast","broadcaster.go:broadcaster.waitUntilClosed","server.go:Server.waitMessages","server.go:Server.Broadcast","conn.go:Conn.Close"])
p("C71","Events that report a membership are true",
  "The callbacks of OnNamespaceConnected, OnRoomJoined and OnRoomLeft are called only after the connection has connected to the namespace, joined the room or left it. (Violated: the remote side can send a frame with any of the three names, and the callback runs although nothing happened and although the application refuses the request itself.)",
  "all applications, states and frames",
  "The frames come from a remote side that need not be this library, so no test that uses its client sends them.",
  ["conn.go:Conn.handleMessage","conn_namespace.go:NSConn.replyRoomJoin","event.go:OnRoomJoined","event.go:Events.fireEvent"])
p("C72","An Ask is not disturbed by callbacks of other goroutines",
  "An Ask that a goroutine of the application makes returns the reply to its own request, and no event is lost, also if callbacks of the same connection run at the same time. (Violated: what the code takes for being inside a callback is a flag of the connection, so the Ask takes away the next frame of the connection, whatever it is, and returns it.)",
  "all applications, frames and schedules",
  "It needs the Ask to begin exactly while the reader is handling another message.",
  ["conn.go:Conn.Ask","conn.go:Conn.ask","conn.go:Conn.startReader","conn.go:Conn.isInsideHandler"])
p("C73","Timeouts of a handler apply",
  "The read and write timeouts given with a handler (WithTimeout, Struct.SetTimeouts) apply to every read and write of the connections that are made with it, also if it is joined with other handlers. (Violated: JoinConnHandlers forgets them, and a pointer to a WithTimeout has none.)",
  "all handlers, lists of joined handlers and times",
  "Every combination of handlers is a different value; that there is no deadline shows only if a peer is silent for ever.",
  ["conn_handler.go:getTimeouts","conn_handler.go:JoinConnHandlers","conn_handler.go:WithTimeout","server.go:New","client.go:Dial","gobwas/socket.go:Socket.ReadData"])
p("C74","Namespace of a struct handler",
  "The namespace of a struct handler is the one given by SetNamespace, else the result of its method Namespace() string, else the value of its field Namespace as Go selects it, else empty. (Violated for a field of an embedded struct: the namespace is then a text made of the type's name.)",
  "all struct types and values",
  "The struct types are arbitrary trees of embedded types.",
  ["reflect.go:resolveStructNamespace","conn_handler.go:Struct.GetNamespaces","conn_handler.go:Struct.SetNamespace"])
p("C75","Connections that exchange native messages only",
  "On a connection whose handler declares nothing but OnNativeMessage, every non-empty frame, whatever its bytes, is given to the callback exactly once and in order, with exactly these bytes as the body; a native message that is written goes out as its body and nothing else; and a call that reports success has reached the other side. (The last part is violated by Ask and JoinRoom.)",
  "all frames and sequences of frames, all callbacks, all bodies, all undisturbed states of such a connection (for Ask: all states)",
  "The bytes are arbitrary and include those that mean something in the protocol of neffos.",
  ["conn.go:newConn","conn.go:startReader","conn.go:HandlePayload","conn.go:handleMessage","conn.go:ask","conn_namespace.go:askRoomJoin","message.go:serializeMessage"])
p("C76","Questions asked at the same moment",
  "Asks of different goroutines on one connection do not disturb each other: each returns the reply to its own question. (Violated if two are made at the same reading of the clock: they share a token, the later one gets the reply to the earlier question, and the earlier one none.)",
  "all undisturbed states of a connection with any number of Asks that wait, all questions",
  "Whether two readings of the clock are equal depends on the schedule and the machine.",
  ["conn.go:Ask","conn.go:ask","conn.go:handleMessage","message.go:genWait"])
p("C77","Asking from the callback of an early message",
  "A callback may Ask the connection whose message it handles, whenever that message arrived: the reply is read and returned. (Violated for messages that arrived before the handshake: the only goroutine that reads the connection waits in the callback for a reply that nobody reads, so the Ask, the connection and the answer to the handshake are blocked for ever, in every continuation.)",
  "every application, every reachable state in which the reader waits so, all continuations",
  "'Never goes on' cannot be observed by a test, and the state depends on the order in which frames arrive.",
  ["conn.go:Conn.startReader","conn.go:Conn.handleACK","conn.go:Conn.handleQueue","conn.go:Conn.Ask"])
p("C78","Any text may come before the handshake",
  "A frame that arrives at a server before the handshake of its connection and is no part of it is kept unchanged until the handshake, whatever text it is. (Violated for texts that begin with the letters H and A: the first closes the connection, of the second the rest becomes the ID of the connection and the text is lost.)",
  "all frames and sequences of frames, all undisturbed states of a connection before the handshake",
  "Depends on the first byte of an arbitrary text and on the order of arrival.",
  ["conn.go:Conn.startReader","conn.go:Conn.handleACK"])
p("C79","Registering a struct does not panic",
  "Registering a struct handler never panics, whatever the types and values of its fields. (Violated for structs with an NSConn field: by an unexported field whose type has a method IsZero() bool, such as time.Time, and by fields whose method IsZero has no result or one that is not a bool.)",
  "all structs: fields, nesting of structs and arrays, values, methods and event matchers",
  "Structs nest to any depth and their types may have any methods.",
  ["reflect.go:isZero","reflect.go:getNonZeroFields","reflect.go:makeEventsFromStruct"])
p("C80","The stack exchange is told the end of every connection",
  "When a connection that the stack exchange was told of has ended, the exchange is told of the end too, so that it can release what it holds for the connection. (Violated for connections that were not accepted, if the server has an OnDisconnect callback and FireDisconnectAlways is not set.)",
  "every server, every state in which the server takes up the end of a connection, every OnDisconnect callback",
  "Depends on the verdict of OnConnect, on the configuration and on the order of events; the leak has no visible effect at once.",
  ["server.go:Server.start","server.go:Server.Upgrade","stackexchange.go:StackExchange"])
p("C81","A broadcast excludes only its own sender",
  "Broadcast(sender, slice...) excludes the given sender and nobody else, whatever was done before with the slice of messages. (Violated: Broadcast writes the exclusion into the slice, so a slice broadcast with a connection as sender and later without a sender, or with an Exclude value, still excludes that connection.)",
  "all slices of messages, all senders, all servers and states, every continuation of the calling program",
  "Depends on the history of the slice; each call by itself behaves well.",
  ["server.go:Server.Broadcast","conn.go:Conn.Write","server.go:publishMessages"])
