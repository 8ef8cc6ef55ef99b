{
 "claims": [
  {
   "property": "C01",
   "status": "proved",
   "theorems": [
    "C01_wire_round_trip"
   ],
   "note": ""
  },
  {
   "property": "C02",
   "status": "proved",
   "theorems": [
    "C02_name_survives_iff",
    "C02_wire_names_iff",
    "C02_replacement_text_not_enough_refuted"
   ],
   "note": ""
  },
  {
   "property": "C03",
   "status": "proved",
   "theorems": [
    "C03_no_field_injection"
   ],
   "note": ""
  },
  {
   "property": "C04",
   "status": "proved",
   "theorems": [
    "C04_reply",
    "C04_error",
    "C04_resolution_is_a_function",
    "C04_registered_error_identity",
    "C04_registration_appends",
    "C04_empty_error_text_is_lost"
   ],
   "note": ""
  },
  {
   "property": "C05",
   "status": "proved",
   "theorems": [
    "C05_invalid_iff",
    "C05_fields"
   ],
   "note": ""
  },
  {
   "property": "C06",
   "status": "proved",
   "theorems": [
    "C06_native_round_trip_iff"
   ],
   "note": ""
  },
  {
   "property": "C07",
   "status": "proved",
   "theorems": [
    "C07_serialize_panics_iff"
   ],
   "note": ""
  },
  {
   "property": "C08",
   "status": "proved",
   "theorems": [
    "C08_sides_disjoint",
    "C08_injective",
    "C08_survives_wire",
    "C08_recognition"
   ],
   "note": ""
  },
  {
   "property": "C09",
   "status": "partial",
   "theorems": [
    "C09_token_never_recognised_refuted"
   ],
   "note": "The property is violated by the code; the theorem proves that no generated token is ever recognised."
  },
  {
   "property": "C10",
   "status": "proved",
   "theorems": [
    "C10_empty_reply",
    "C10_empty_reply_generated"
   ],
   "note": ""
  },
  {
   "property": "C11",
   "status": "proved",
   "theorems": [
    "C11_join_handlers",
    "C11_on",
    "C11_events_on"
   ],
   "note": ""
  },
  {
   "property": "C12",
   "status": "proved",
   "theorems": [
    "C12_which",
    "C12_dispatch",
    "C12_unconnected"
   ],
   "note": ""
  },
  {
   "property": "C13",
   "status": "proved",
   "theorems": [
    "C13_static",
    "C13_dynamic",
    "C13_matchers",
    "C13_special_events_not_mapped",
    "C13_runs"
   ],
   "note": ""
  },
  {
   "property": "C14",
   "status": "proved",
   "theorems": [
    "C14_new_controller",
    "C14_same_fields",
    "C14_isolation",
    "C14_no_panic",
    "C14_unexported_field_refuted",
    "C14_registered_nsconn_refuted",
    "C14_connect"
   ],
   "note": "Proved under the two provisos of the statement; the _refuted theorems show that both are needed."
  },
  {
   "property": "C15",
   "status": "proved",
   "theorems": [
    "C15_connect_request"
   ],
   "note": ""
  },
  {
   "property": "C16",
   "status": "proved",
   "theorems": [
    "C16_disconnect_request"
   ],
   "note": ""
  },
  {
   "property": "C17",
   "status": "proved",
   "theorems": [
    "C17_join_request",
    "C17_leave_request"
   ],
   "note": ""
  },
  {
   "property": "C18",
   "status": "proved",
   "theorems": [
    "C18_write",
    "C18_write_closed",
    "C18_write_accepts"
   ],
   "note": ""
  },
  {
   "property": "C19",
   "status": "proved",
   "theorems": [
    "C19_payload_refines_machine",
    "C19_membership_of_sequence"
   ],
   "note": ""
  },
  {
   "property": "C20",
   "status": "partial",
   "theorems": [
    "C20_unconnected_gets_answer_refuted"
   ],
   "note": "The code violates the property: the refusal for a namespace that is not connected is never written; the _refuted theorem proves it."
  },
  {
   "property": "C21",
   "status": "proved",
   "theorems": [
    "C21_close",
    "C21_close_again"
   ],
   "note": ""
  },
  {
   "property": "C22",
   "status": "proved",
   "theorems": [
    "C22_connect",
    "C22_disconnect",
    "C22_join",
    "C22_leave"
   ],
   "note": ""
  },
  {
   "property": "C23",
   "status": "proved",
   "theorems": [
    "C23_conn",
    "C23_server"
   ],
   "note": ""
  },
  {
   "property": "C24",
   "status": "partial",
   "theorems": [
    "C24_replied_partial",
    "C24_context_refuted",
    "C24_refused_refuted",
    "C24_server_partial",
    "C24_server_context_refuted",
    "C24_server_async_partial"
   ],
   "note": "Holds for Ask and Server.Ask when the reply arrives; the _refuted theorems show that the waiter stays registered after the context ended and after a refused write."
  },
  {
   "property": "C25",
   "status": "partial",
   "theorems": [
    "C25_context_partial",
    "C25_at_once_partial",
    "C25_refuted"
   ],
   "note": "A closed connection, an expired deadline and the end of the context are proved. The code violates the property for an Ask without deadline; the _refuted theorem proves that it is blocked for ever."
  },
  {
   "property": "C26",
   "status": "partial",
   "theorems": [
    "C26_refuted",
    "C26_next_partial",
    "C26_ends_partial"
   ],
   "note": "The property is violated: the _refuted theorem shows that the Ask returns the next frame, whatever it is, and that no callback runs for it. The _partial theorems: if the reply comes next it is returned, and if the connection ends the error is."
  },
  {
   "property": "C27",
   "status": "proved",
   "theorems": [
    "C27_late_reply",
    "C27_server_refuted"
   ],
   "note": "Holds for Conn.Ask; violated by Server.Ask, whose late replies block the reader for ever (_refuted theorem)."
  },
  {
   "property": "C28",
   "status": "proved",
   "theorems": [
    "C28_not_taken",
    "C28_never_returned",
    "C28_server_never_returned"
   ],
   "note": ""
  },
  {
   "property": "C29",
   "status": "partial",
   "theorems": [
    "C29_dial_partial",
    "C29_accepted_partial",
    "C29_refused_partial",
    "C29_talk_refuted",
    "C29_echo_refuted"
   ],
   "note": "Proved for every ID and error text in an undisturbed handshake, and (C29_dial_partial) for every schedule of any application and any frames of the other side: Dial succeeds only after the handshake was completed by the frame with that ID, unless the other side sent a frame \"M\". Two _refuted theorems show where the agreement fails."
  },
  {
   "property": "C30",
   "status": "partial",
   "theorems": [
    "C30_refuted",
    "C30_handshake_partial",
    "C30_queue_partial",
    "C30_client_partial",
    "C30_reordered_refuted"
   ],
   "note": "Proved for every schedule that the handshake of the connection comes first; the queue is proved for every list of frames. The _refuted theorem shows that a refused peer can end the handshake itself."
  },
  {
   "property": "C31",
   "status": "partial",
   "theorems": [
    "C31_not_before_partial",
    "C31_waits_partial",
    "C31_undecided_partial",
    "C31_first_partial",
    "C31_refuted"
   ],
   "note": "For every schedule nobody passes before the gate is opened (C31_not_before_partial); a waiting goroutine gets the result it is opened with (C31_waits_partial); the first result is kept (C31_first_partial). The code loses wakeups: the _refuted theorem proves that a waiter that arrives too late is blocked for ever."
  },
  {
   "property": "C32",
   "status": "partial",
   "theorems": [
    "C32_waits_partial",
    "C32_until_partial",
    "C32_refuted"
   ],
   "note": "For the first Connect of a namespace the property holds: a message waits, without any effect, until the Connect ends and is then handled as if it came then (in the part run without interruption, and in every schedule it waits until some Connect of the namespace ends). With overlapping Connects it is violated: the gate stays closed and the _refuted theorem proves that the reader is blocked for ever."
  },
  {
   "property": "C33",
   "status": "proved",
   "theorems": [
    "C33_order",
    "C33_origin",
    "C33_served",
    "C33_once",
    "C33_refuted"
   ],
   "note": "Exactly-once in general is violated (C33_refuted); what the English says instead is proved for every schedule."
  },
  {
   "property": "C34",
   "status": "proved",
   "theorems": [
    "C34_rounds",
    "C34_rest",
    "C34_always"
   ],
   "note": ""
  },
  {
   "property": "C35",
   "status": "partial",
   "theorems": [
    "C35_one_partial",
    "C35_batch_partial",
    "C35_refuted",
    "C35_empty_id_refuted",
    "C35_closed_partial"
   ],
   "note": "The code violates the property: a batch stops at the first message that is not meant for the connection, and a connection with an empty ID gets nothing; the _refuted theorem and the exact law are proved."
  },
  {
   "property": "C36",
   "status": "proved",
   "theorems": [
    "C36_connection",
    "C36_id",
    "C36_nobody",
    "C36_nsconn"
   ],
   "note": ""
  },
  {
   "property": "C37",
   "status": "partial",
   "theorems": [
    "C37_total_partial",
    "C37_any_time_partial",
    "C37_once_partial",
    "C37_each_partial",
    "C37_refuted"
   ],
   "note": "The count, the at-most-once OnDisconnect and (with FireDisconnectAlways) its completeness are proved for every schedule; the last clause is violated by the code: a disconnection taken up before the connection leaks it (refuted by a reachable state)."
  },
  {
   "property": "C38",
   "status": "partial",
   "theorems": [
    "C38_close_partial",
    "C38_refused_partial",
    "C38_early_refuted",
    "C38_race_refuted",
    "C38_second_refuted"
   ],
   "note": "Proved for a running server and the first Close in every schedule; the code violates the property for a Close before the loop has started, for an Upgrade past the check and for a second concurrent Close (refuted by reachable states)."
  },
  {
   "property": "C39",
   "status": "partial",
   "theorems": [
    "C39_refuted",
    "C39_forever_refuted",
    "C39_endless_refuted",
    "C39_acked_partial"
   ],
   "note": "The code violates the property on a server side connection that is never acknowledged: the call never returns; proved for every schedule."
  },
  {
   "property": "C40",
   "status": "proved",
   "theorems": [
    "C40_process",
    "C40_only_put",
    "C40_increment",
    "C40_decrement",
    "C40_sequence",
    "C40_concurrent",
    "C40_lost_updates_refuted"
   ],
   "note": "The _refuted theorem shows the lost updates for every number of concurrent calls."
  },
  {
   "property": "C41",
   "status": "proved",
   "theorems": [
    "C41_headers",
    "C41_case"
   ],
   "note": ""
  },
  {
   "property": "C42",
   "status": "proved",
   "theorems": [
    "C42_decisions",
    "C42_reconnect"
   ],
   "note": ""
  },
  {
   "property": "C43",
   "status": "proved",
   "theorems": [
    "C43_every_exchange",
    "C43_connect_stops",
    "C43_ask_first",
    "C43_ask_fallback_refuted",
    "C43_notify"
   ],
   "note": "The _refuted theorem shows that the fallback of Ask asks the second exchange with the failed answer instead of the question."
  },
  {
   "property": "C44",
   "status": "proved",
   "theorems": [
    "C44_content",
    "C44_delivery",
    "C44_excluded",
    "C44_redis",
    "C44_nats",
    "C44_publish_panics",
    "C44_redis_pattern_id_refuted",
    "C44_nats_pattern_id_refuted",
    "C44_id_namespace_refuted",
    "C44_nats_twice_refuted",
    "C44_exclude_id_refuted"
   ],
   "note": "Reach, content and delivery proved; the _refuted theorems show what breaks it: exclusion by ID, pattern bytes in an ID, an ID equal to a namespace, repeated nats subscriptions."
  },
  {
   "property": "C45",
   "status": "proved",
   "theorems": [
    "C45_one_panic",
    "C45_no_panic",
    "C45_refuted"
   ],
   "note": "One panic is possible in any execution (reuse of a WaitGroup by repeated Connects), proved reachable by the _refuted theorem and proved to be the only one; none without Connect calls."
  },
  {
   "property": "C46",
   "status": "partial",
   "theorems": [
    "C46_leave_partial",
    "C46_disconnect_partial",
    "C46_reader_refuted",
    "C46_reader_rooms_refuted",
    "C46_refuted",
    "C46_leave_refuted"
   ],
   "note": "The property is violated; the _refuted theorems prove that both calls block for ever with a broken socket, and also with a working one if a message arrives before the answer (the reader needs the lock the call holds). The _partial theorems: on an undisturbed connection with as many answers as rooms or namespaces the calls end and keep no lock."
  },
  {
   "property": "C47",
   "status": "partial",
   "theorems": [
    "C47_refuted",
    "C47_namespaces_refuted"
   ],
   "note": "The property is violated for forced leaves and for OnNamespaceDisconnect during Close; the _refuted theorems prove that such a callback blocks for ever."
  },
  {
   "property": "C48",
   "status": "partial",
   "theorems": [
    "C48_refuted",
    "C48_twice_refuted"
   ],
   "note": "The property is violated; the _refuted theorems show it for a request of the other side that overlaps (every state) and for two goroutines that connect at the same time."
  },
  {
   "property": "C49",
   "status": "proved",
   "theorems": [
    "C49_ask",
    "C49_no_reply"
   ],
   "note": ""
  },
  {
   "property": "C50",
   "status": "proved",
   "theorems": [
    "C50_connect",
    "C50_connect_agree",
    "C50_connect_agree_refuted",
    "C50_join",
    "C50_join_agree",
    "C50_join_agree_refuted",
    "C50_leave",
    "C50_disconnect"
   ],
   "note": "Agreement holds unless a callback of the asked side returns a Reply or an error without text; the _refuted theorems show these cases."
  },
  {
   "property": "C51",
   "status": "proved",
   "theorems": [
    "C51_close",
    "C51_timeout",
    "C51_disconnect",
    "C51_write"
   ],
   "note": ""
  },
  {
   "property": "C52",
   "status": "proved",
   "theorems": [
    "C52_read_data",
    "C52_all_messages",
    "C52_broken_off",
    "C52_gorilla"
   ],
   "note": ""
  },
  {
   "property": "C53",
   "status": "proved",
   "theorems": [
    "C53_reconnect_tries",
    "C53_range",
    "C53_garbage",
    "C53_sign"
   ],
   "note": ""
  },
  {
   "property": "C55",
   "status": "proved",
   "theorems": [
    "C55_rounds",
    "C55_rest",
    "C55_sync"
   ],
   "note": ""
  },
  {
   "property": "C54",
   "status": "partial",
   "theorems": [
    "C54_refuted"
   ],
   "note": "The property is violated: the _refuted theorem shows, for every reachable state with such a pair of goroutines, that both are blocked for ever; the example reaches one with a server and a client that both run the code. That Connect returns when nothing comes before the answer is part of C15 and C16."
  },
  {
   "property": "C56",
   "status": "partial",
   "theorems": [
    "C56_order",
    "C56_order_closed",
    "C56_once",
    "C56_handshake",
    "C56_order_refuted"
   ],
   "note": "Order is per kind of frame: frames of both kinds that are queued before the handshake are handled one kind after the other (C30_reordered_refuted). The order is proved while the connection is open; once Close runs, a second handshake can break it (C56_order_refuted), and only then (C56_order_closed)."
  },
  {
   "property": "C57",
   "status": "proved",
   "theorems": [
    "C57_namespace",
    "C57_room",
    "C57_barred",
    "C57_events",
    "C57_barred_events",
    "C57_barred_room"
   ],
   "note": ""
  },
  {
   "property": "C58",
   "status": "proved",
   "theorems": [
    "C58_emit",
    "C58_room_emit",
    "C58_nothing",
    "C58_delivered",
    "C58_room_delivered",
    "C58_ask"
   ],
   "note": ""
  },
  {
   "property": "C59",
   "status": "partial",
   "theorems": [
    "C59_namespace",
    "C59_room",
    "C59_rooms",
    "C59_connections_partial",
    "C59_by_namespace_partial",
    "C59_refuted"
   ],
   "note": "GetConnections and GetConnectionsByNamespace are exact if the IDs of the registered connections are distinct. Two connections with one ID share an entry, so that one of them is missing (C59_refuted). GetConnectionsByNamespace is about the moment when no goroutine holds the locks of the namespaces."
  },
  {
   "property": "C60",
   "status": "proved",
   "theorems": [
    "C60_wait_connect"
   ],
   "note": ""
  },
  {
   "property": "C61",
   "status": "partial",
   "theorems": [
    "C61_fixed",
    "C61_origin_partial",
    "C61_server",
    "C61_client",
    "C61_refuted"
   ],
   "note": "Proved in every schedule: the ID stays after the handshake, a client has the ID it was sent, and a server side connection the generated one unless the other side sent a frame \"A\". With such a frame it takes the ID of another connection (C61_refuted)."
  },
  {
   "property": "C62",
   "status": "proved",
   "theorems": [
    "C62_leave_all",
    "C62_leave_result",
    "C62_leave_agreed",
    "C62_disconnect_all",
    "C62_disconnect_result",
    "C62_disconnect_agreed"
   ],
   "note": ""
  },
  {
   "property": "C63",
   "status": "proved",
   "theorems": [
    "C63_reader",
    "C63_dial_error",
    "C63_for_ever"
   ],
   "note": ""
  },
  {
   "property": "C64",
   "status": "partial",
   "theorems": [
    "C64_nil",
    "C64_rooms_refuted",
    "C64_broadcast_refuted",
    "C64_native_refuted"
   ],
   "note": "Proved for Emit, EmitBinary, Ask, JoinRoom, Room, LeaveAll and Disconnect on a nil NSConn. The code violates it for Rooms on a nil NSConn, for Broadcast on a client's NSConn and for Disconnect on a native-only connection: the three _refuted theorems are runs that end in a panic."
  },
  {
   "property": "C65",
   "status": "partial",
   "theorems": [
    "C65_refuted",
    "C65_close_refuted"
   ],
   "note": "The code violates the property: the two _refuted theorems show, for every application and schedule, that the server takes up nothing any more after such a call (Do; Broadcast and Ask with a synchronous broadcaster; Close of an open server)."
  },
  {
   "property": "C66",
   "status": "partial",
   "theorems": [
    "C66_only_admitted_partial",
    "C66_refused_partial",
    "C66_missing_refuted",
    "C66_twice_refuted"
   ],
   "note": "Proved for every schedule: a disconnect event comes only for a namespace that was admitted (C66_only_admitted_partial). The code violates the rest: a disconnect event can be missing, and it can come twice (_refuted theorems). C21_close proves that Close calls OnNamespaceDisconnect exactly once for every connected namespace if nothing else runs for the connection."
  },
  {
   "property": "C67",
   "status": "proved",
   "theorems": [
    "C67_told",
    "C67_stays",
    "C67_registered",
    "C67_broadcasts",
    "C67_do",
    "C67_deliverer",
    "C67_socket"
   ],
   "note": ""
  },
  {
   "property": "C68",
   "status": "proved",
   "theorems": [
    "C68_frames",
    "C68_barred",
    "C68_barred_room"
   ],
   "note": ""
  },
  {
   "property": "C69",
   "status": "partial",
   "theorems": [
    "C69_reader_partial",
    "C69_deliverer_partial"
   ],
   "note": "Proved for every schedule for a reader at the start of a round, and for a deliverer at the start of a round while the lock of the broadcaster is free; C26_ends_partial is the part for an Ask inside a callback. Missing: rounds under way, which wait for callbacks and, as C54_refuted shows, can block for ever."
  },
  {
   "property": "C70",
   "status": "partial",
   "theorems": [
    "C70_refuted",
    "C70_free_partial"
   ],
   "note": "Violated (C70_refuted). Proved: the call returns while the lock of the broadcaster is free. Missing: Broadcasts that wait for deliveries under way."
  },
  {
   "property": "C71",
   "status": "partial",
   "theorems": [
    "C71_forged_refuted",
    "C71_refuted"
   ],
   "note": "Violated (C71_forged_refuted for every state at rest, C71_refuted with a reachable witness). The calls that are due to real requests are in C15, C16, C19 and C66. Missing: which of the calls are not forged."
  },
  {
   "property": "C72",
   "status": "partial",
   "theorems": [
    "C72_refuted"
   ],
   "note": "Violated: the _refuted theorem is a run of an application whose callbacks do not use the API; C26_refuted shows for every state with the flag set, and every goroutine, what the Ask does. That an Ask which began while no callback ran returns its own reply, in every schedule, is C23_conn."
  },
  {
   "property": "C73",
   "status": "partial",
   "theorems": [
    "C73_partial",
    "C73_joined_refuted",
    "C73_pointer_refuted"
   ],
   "note": "Proved for WithTimeout values and Structs; violated for joined handlers and for pointers (_refuted theorems)."
  },
  {
   "property": "C74",
   "status": "partial",
   "theorems": [
    "C74_partial",
    "C74_ambiguous",
    "C74_refuted"
   ],
   "note": "Proved for SetNamespace, the method, and fields of the struct itself; violated for fields of embedded structs at any depth (C74_refuted)."
  },
  {
   "property": "C75",
   "status": "partial",
   "theorems": [
    "C75_frame",
    "C75_frames",
    "C75_write",
    "C75_ask_refuted",
    "C75_join_refuted"
   ],
   "note": "Proved for what is received and what is written, from undisturbed states (the order in every schedule is C56); violated by Ask and JoinRoom (_refuted theorems)."
  },
  {
   "property": "C76",
   "status": "partial",
   "theorems": [
    "C76_apart_partial",
    "C76_replaced_refuted",
    "C76_refuted"
   ],
   "note": "Proved for Asks at different readings of the clock (the new one leaves the waiting ones registered; that a registered Ask gets the reply with its token is C23_conn and C27). Violated at equal readings (two _refuted theorems)."
  },
  {
   "property": "C77",
   "status": "partial",
   "theorems": [
    "C77_reader_refuted",
    "C77_queue_refuted"
   ],
   "note": "Violated: C77_reader_refuted for every reachable state with such a reader, C77_queue_refuted by two runs that differ in the order of the frames only. That the Ask returns the reply for messages after the handshake, if the reply comes next, is C26_next_partial."
  },
  {
   "property": "C78",
   "status": "partial",
   "theorems": [
    "C78_kept_partial",
    "C78_closed_refuted",
    "C78_taken_refuted"
   ],
   "note": "Proved for all sequences of non-empty frames that begin with none of the letters M, A and H; violated for H and A in every undisturbed state (two _refuted theorems)."
  },
  {
   "property": "C79",
   "status": "partial",
   "theorems": [
    "C79_registers_partial",
    "C79_hidden_refuted",
    "C79_results_refuted"
   ],
   "note": "Proved unless a field involves an IsZero method without arguments that is hidden in an unexported field or does not return exactly one bool; violated in these cases (two _refuted theorems)."
  },
  {
   "property": "C80",
   "status": "partial",
   "theorems": [
    "C80_plain_partial",
    "C80_accepted_partial",
    "C80_refused_refuted",
    "C80_refuted"
   ],
   "note": "Proved for one iteration of the server loop from every state, without an OnDisconnect callback and with one that returns if the connection was accepted or FireDisconnectAlways is set; violated otherwise (C80_refused_refuted, and a whole run in C80_refuted). Missing: that the end of every connection is taken up (C37)."
  },
  {
   "property": "C81",
   "status": "partial",
   "theorems": [
    "C81_once_partial",
    "C81_kind_partial",
    "C81_again_refuted",
    "C81_missed_refuted",
    "C81_both_refuted"
   ],
   "note": "Proved for slices that are used once and for repeated calls whose senders are all connections or all Exclude values; violated when the second call has no sender or one of the other kind (C81_again_refuted, C81_missed_refuted, C81_both_refuted). Missing: Room senders in repeated calls, callers that change the slice while Broadcast runs."
  }
 ]
}