{
 "claims": [
  {
   "property": "C01",
   "status": "proved",
   "theorems": [
    "C01_varint_roundtrip"
   ],
   "note": "All n; both writers, all three readers, any trailing bytes; minimality over all encodings of the same value."
  },
  {
   "property": "C02",
   "status": "proved",
   "theorems": [
    "C02_varint_classify"
   ],
   "note": "All byte strings; three disjoint classes."
  },
  {
   "property": "C03",
   "status": "partial",
   "theorems": [
    "C03_exact",
    "C03_sync_roundtrip_partial",
    "C03_will_payload_format_refuted",
    "C03_short_ack_refuted",
    "C03_empty_auth_refuted"
   ],
   "note": "Proved for every well-formed packet except three kinds, each shown to fail by a witness: a will with a payload format indicator, PUBREC/PUBCOMP with an error code and no properties, authentication data that is present but empty. C03_exact: no others fail, and each of these always fails."
  },
  {
   "property": "C04",
   "status": "partial",
   "theorems": [
    "C04_exact",
    "C04_async_roundtrip_partial",
    "C04_empty_auth_refuted",
    "C04_short_ack_refuted",
    "C04_assigned_id_refuted",
    "C04_two_topics_refuted"
   ],
   "note": "Proved except four kinds, each with a witness: empty authentication data, short PUBREC/PUBCOMP, CONNACK with assigned client identifier, SUBSCRIBE with several topics. C04_exact: exactly these fail."
  },
  {
   "property": "C05",
   "status": "partial",
   "theorems": [
    "C05_to_stream_exact",
    "C05_to_buffer_exact",
    "C05_cross_runtime_partial",
    "C05_refuted"
   ],
   "note": "Proved in both directions with the exclusions of C03 and C04; refuted without them. The two exact theorems say exactly which packets cross."
  },
  {
   "property": "C06",
   "status": "partial",
   "theorems": [
    "C06_buffer_exact",
    "C06_stream_exact",
    "C06_announced_length_partial",
    "C06_empty_auth_refuted",
    "C06_assigned_id_refuted",
    "C06_server_reference_count_refuted"
   ],
   "note": "Proved with exclusions; refuted by witnesses (empty authentication data, assigned client identifier, returned count with server reference). The exact theorems: a written packet is a frame if and only if it is none of these (AUTH leaves empty data out and stays a frame)."
  },
  {
   "property": "C07",
   "status": "partial",
   "theorems": [
    "C07_exact",
    "C07_decode_total_partial",
    "C07_refuted"
   ],
   "note": "Stream decoder: proved. Buffer decoder: never loops; panics exactly on CONNECT packets cut off in the keep alive or in a property that is an integer of a fixed size."
  },
  {
   "property": "C08",
   "status": "partial",
   "theorems": [
    "C08_truncated_frames",
    "C08_truncated_partial",
    "C08_every_encoding",
    "C08_refuted"
   ],
   "note": "Proved for written packets without empty authentication data and for every MQTT 5 encoding; refuted for CONNACK with empty authentication data. C08_truncated_frames needs only what makes the written bytes a frame."
  },
  {
   "property": "C09",
   "status": "proved",
   "theorems": [
    "C09_one_frame"
   ],
   "note": "All byte strings."
  },
  {
   "property": "C10",
   "status": "partial",
   "theorems": [
    "C10_exact",
    "C10_chunks_irrelevant",
    "C10_fragmentation_partial",
    "C10_refuted"
   ],
   "note": "Chunking is irrelevant for arbitrary bytes; written packets come out exactly, with the exclusions of C03; refuted for a short PUBREC. Exact: the exclusions are all that fail."
  },
  {
   "property": "C11",
   "status": "proved",
   "theorems": [
    "C11_decoded_well_formed"
   ],
   "note": "Both decoders, all byte strings."
  },
  {
   "property": "C12",
   "status": "partial",
   "theorems": [
    "C12_stream_exact",
    "C12_buffer_exact",
    "C12_injective_partial",
    "C12_refuted"
   ],
   "note": "Proved for both writers and mixed, also prefix-freedom, excluding empty authentication data; refuted for AUTH with empty data. Exact: when two packets give the same bytes."
  },
  {
   "property": "C13",
   "status": "partial",
   "theorems": [
    "C13_strict_sections_partial",
    "C13_suback_refuted",
    "C13_subscribe_refuted"
   ],
   "note": "Proved at packet level for all sections; exceptions refuted by witness: SUBACK accepts a subscription identifier, the stream decoder accepts a repeated subscription identifier in SUBSCRIBE."
  },
  {
   "property": "C14",
   "status": "proved",
   "theorems": [
    "C14_reason_codes"
   ],
   "note": "All nine enums; also at packet level."
  },
  {
   "property": "C15",
   "status": "proved",
   "theorems": [
    "C15_fixed_headers"
   ],
   "note": "All 256 bytes, all packets."
  },
  {
   "property": "C16",
   "status": "partial",
   "theorems": [
    "C16_long_topics_refused_partial",
    "C16_refuted",
    "C16_never_read",
    "C16_silent",
    "C16_exact"
   ],
   "note": "Only topics are checked (by the client). Every other packet with a longer field, if its body has a length MQTT can express, is written without error and not read back (C16_silent); of the requests that pass validation exactly those without such a field are read back (C16_exact)."
  },
  {
   "property": "C17",
   "status": "partial",
   "theorems": [
    "C17_exact",
    "C17_size_partial",
    "C17_refuted"
   ],
   "note": "Validation leaves out the fixed header: proved with slack 5, refuted as stated. Exact: accepted if and only if the topics fit and the MQTT 5 body is within the maximum."
  },
  {
   "property": "C18",
   "status": "partial",
   "theorems": [
    "C18_exact",
    "C18_transmittable_partial",
    "C18_no_topics_refuted"
   ],
   "note": "Proved for requests with at least one topic; a SUBSCRIBE without topics is accepted and unreadable. Exact: read back if and only if it has a topic."
  },
  {
   "property": "C19",
   "status": "proved",
   "theorems": [
    "C19_identifiers",
    "C19_new_request"
   ],
   "note": "Proved for every execution of the model (any interleaving of clients, broker, failures, reconnects)."
  },
  {
   "property": "C20",
   "status": "proved",
   "theorems": [
    "C20_bounded",
    "C20_panics"
   ],
   "note": "Bound and full-pool branch. C20_panics lists every way the client can panic; overflow of the pool is not among them."
  },
  {
   "property": "C21",
   "status": "partial",
   "theorems": [
    "C21_kept_partial",
    "C21_refused_call_refuted",
    "C21_write_failure_refuted",
    "C21_pubrec_error_refuted",
    "C21_not_resumed_refuted",
    "C21_dropped_call_refuted"
   ],
   "note": "False as stated. Five ways to lose an identifier for good are exhibited; C21_kept_partial shows that the list [loses] in SpecSession.v is complete."
  },
  {
   "property": "C22",
   "status": "partial",
   "theorems": [
    "C22_released_partial",
    "C22_once",
    "C22_order",
    "C22_front",
    "C22_refuted"
   ],
   "note": "Release characterised by an iff on every step. Missing: a PUBACK also ends a QoS 2 exchange (C22_refuted)."
  },
  {
   "property": "C23",
   "status": "partial",
   "theorems": [
    "C23_packets_partial",
    "C23_connack",
    "C23_zero_refuted",
    "C23_large_refuted"
   ],
   "note": "False: PUBACK or PUBREC with identifier 0 or above receive_maximum panics. C23_packets_partial: exactly these packets."
  },
  {
   "property": "C24",
   "status": "partial",
   "theorems": [
    "C24_smol",
    "C24_tokio_partial",
    "C24_nothing_else",
    "C24_tokio_refuted"
   ],
   "note": "Full for smol. For tokio every packet is attempted in the right order, but a failed write is ignored and connect returns Ok (refuted). The order of the PUBRELs is that of an unordered set: stated up to permutation."
  },
  {
   "property": "C25",
   "status": "proved",
   "theorems": [
    "C25_nothing_resent",
    "C25_old_refused"
   ],
   "note": "Proved: nothing is resent, and acknowledgements of the old session are refused unless the identifier has been used again since."
  },
  {
   "property": "C26",
   "status": "proved",
   "theorems": [
    "C26_qos1",
    "C26_qos0",
    "C26_handled",
    "C26_puback"
   ],
   "note": "Proved, both directions, as far as the execution goes; a failed write of the reply ends run with an error."
  },
  {
   "property": "C27",
   "status": "proved",
   "theorems": [
    "C27_once",
    "C27_pubrec",
    "C27_pubrel"
   ],
   "note": "Proved for every execution."
  },
  {
   "property": "C28",
   "status": "partial",
   "theorems": [
    "C28_partial",
    "C28_refuted",
    "C28_exact"
   ],
   "note": "False for a message whose first copy to arrive has the duplicate flag (refuted); proved for all others. C28_exact: handed over if and only if no exchange is open and the flag is not set."
  },
  {
   "property": "C29",
   "status": "proved",
   "theorems": [
    "C29_pubrel",
    "C29_publish",
    "C29_pubcomp"
   ],
   "note": "Proved."
  },
  {
   "property": "C30",
   "status": "partial",
   "theorems": [
    "C30_unsolicited_partial",
    "C30_solicited",
    "C30_refuted"
   ],
   "note": "Proved except for the identifiers of C23, which panic instead of giving an error."
  },
  {
   "property": "C31",
   "status": "partial",
   "theorems": [
    "C31_partial",
    "C31_refuted",
    "C31_exact"
   ],
   "note": "False for QoS 2 publishes that are marked as duplicate (refuted, same witness as C28) ; proved for all other replies. C31_exact: no other reply is written without the handler, and those never after it."
  },
  {
   "property": "C32",
   "status": "partial",
   "theorems": [
    "C32_order_partial",
    "C32_written_partial",
    "C32_failure",
    "C32_bounded",
    "C32_channel",
    "C32_refuted"
   ],
   "note": "Attempts are exactly a prefix of what was accepted, and so are the writes if none fails. A request whose write fails is skipped for good (refuted)."
  },
  {
   "property": "C33",
   "status": "partial",
   "theorems": [
    "C33_partial",
    "C33_refuted"
   ],
   "note": "Proved except for a publish whose write failed; that one is lost (refuted)."
  },
  {
   "property": "C34",
   "status": "proved",
   "theorems": [
    "C34_silence",
    "C34_queue"
   ],
   "note": "Proved."
  },
  {
   "property": "C35",
   "status": "proved",
   "theorems": [
    "C35_closed"
   ],
   "note": "Proved."
  },
  {
   "property": "C36",
   "status": "proved",
   "theorems": [
    "C36_opened",
    "C36_refused",
    "C36_unchanged"
   ],
   "note": "Proved."
  },
  {
   "property": "C37",
   "status": "partial",
   "theorems": [
    "C37_partial",
    "C37_sticky_refuted",
    "C37_long_refuted",
    "C37_handler_refuted"
   ],
   "note": "Proved for expressible intervals while no earlier connection had interval 0, with 2*D for handlers and writes taking at most D. Refuted: after a connection with interval 0 keep-alive stays off for ever; intervals above 65535 s are promised modulo 65536; a slow handler delays the ping without bound."
  },
  {
   "property": "C38",
   "status": "proved",
   "theorems": [
    "C38_detected",
    "C38_fires",
    "C38_only"
   ],
   "note": "Proved for both runtimes, except that C38_only is for tokio (smol also disconnects for keep-alive 0, see C39)."
  },
  {
   "property": "C39",
   "status": "partial",
   "theorems": [
    "C39_partial",
    "C39_smol_refuted"
   ],
   "note": "Proved for tokio, and for PINGREQ on smol. The smol client disconnects after an hour without traffic (refuted)."
  },
  {
   "property": "C40",
   "status": "partial",
   "theorems": [
    "C40_partial",
    "C40_refuted",
    "C40_leak_refuted"
   ],
   "note": "Proved with the last packet read counted like a write and with the interval last set. Refuted otherwise: incoming traffic suppresses pings; the broker's interval of an earlier connection is used."
  },
  {
   "property": "C41",
   "status": "partial",
   "theorems": [
    "C41_exact",
    "C41_order_partial",
    "C41_count_partial",
    "C41_prompt_partial",
    "C41_stall_refuted",
    "C41_refuted",
    "C41_panic_refuted"
   ],
   "note": "Proved: order, no loss, duplication or invention for every chunking (debug builds: up to a panic); exact number handed over; promptness when no chunk completes more than one packet. Refuted: two packets that arrive together leave the second in the buffer; debug builds panic when the last byte of a packet arrives alone. Exact: what is handed over, from the sizes of packets and chunks."
  },
  {
   "property": "C42",
   "status": "partial",
   "theorems": [
    "C42_exact",
    "C42_partial",
    "C42_loss_refuted",
    "C42_refuted",
    "C42_invented_refuted"
   ],
   "note": "Proved when a read is interrupted only between packets. Refuted: the part already read is dropped, for every packet and every point of interruption, and the rest is read as a different packet. Exact: what is read, from the sizes, up to the first drop that loses bytes."
  },
  {
   "property": "C43",
   "status": "partial",
   "theorems": [
    "C43_exact",
    "C43_panics_exact",
    "C43_sound_partial",
    "C43_partial",
    "C43_refuted",
    "C43_hang_refuted"
   ],
   "note": "Proved: connect obtains that CONNACK, panics or waits; it obtains it when the chunk that completes the fixed header completes the packet. Refuted: every CONNACK can be cut so that connect panics; release builds may wait for ever. Exact: whether the answer is read, from the sizes of the chunks. C43_panics_exact: which chunks, of any bytes, panic connect."
  },
  {
   "property": "C44",
   "status": "partial",
   "theorems": [
    "C44_partial",
    "C44_accepted_partial",
    "C44_written_partial",
    "C44_wraps_refuted",
    "C44_refuted",
    "C44_leak_refuted"
   ],
   "note": "Proved for options built by any calls of the setters, both writers, both runtimes: CONNECT says the last value of every option and is the only packet with its bytes, for keep-alive below 65536 s and while no CONNACK imposed an interval. Refuted: longer intervals are sent modulo 65536; on tokio an imposed interval appears in the next CONNECT."
  },
  {
   "property": "C45",
   "status": "proved",
   "theorems": [
    "C45_accepts",
    "C45_limits"
   ],
   "note": "Proved for every value and every sequence of setter calls."
  },
  {
   "property": "C46",
   "status": "partial",
   "theorems": [
    "C46_property_tables_partial",
    "C46_suback_refuted"
   ],
   "note": "All sections except SUBACK equal table 2-4; SUBACK lists Subscription Identifier instead of Reason String."
  },
  {
   "property": "C47",
   "status": "proved",
   "theorems": [
    "C47_reason_values"
   ],
   "note": "All codes of MQTT 5 table 2-6 and per-packet lists."
  },
  {
   "property": "C49",
   "status": "partial",
   "theorems": [
    "C49_exact",
    "C49_reads_every_encoding_partial",
    "C49_short_forms_refuted"
   ],
   "note": "Every MQTT 5 encoding is read back, except the short forms (refuted), wills with payload format indicator (C03) and several topics (C04). C49_exact: an encoding is read if and only if it is none of these."
  },
  {
   "property": "C50",
   "status": "partial",
   "theorems": [
    "C50_buffer_exact",
    "C50_stream_exact",
    "C50_writes_mqtt5_partial",
    "C50_refuted"
   ],
   "note": "Proved with exclusions; refuted for CONNACK with empty authentication data. Exact: the bytes are MQTT 5 if and only if the packet is none of the excluded ones."
  },
  {
   "property": "C51",
   "status": "proved",
   "theorems": [
    "C51_strings_are_utf8"
   ],
   "note": "Against RFC 3629 stated as sequences of encoded scalar values."
  },
  {
   "property": "C52",
   "status": "proved",
   "theorems": [
    "C52_events",
    "C52_refines",
    "C52_realised"
   ],
   "note": "Refinement and, for packets in one piece, its converse. C52_events: the events of such executions are in range."
  },
  {
   "property": "C53",
   "status": "partial",
   "theorems": [
    "C53_order_partial",
    "C53_messages_partial",
    "C53_smol",
    "C53_all_partial",
    "C53_no_error_partial",
    "C53_stall_refuted",
    "C53_torn_refuted"
   ],
   "note": "Order is proved for both runtimes, completeness for tokio, when no tokio read was abandoned within a packet (smol never does this). Refuted: smol stalls on a message that arrives with CONNACK; tokio loses its place when a request or timer interrupts a partly read packet."
  },
  {
   "property": "C54",
   "status": "partial",
   "theorems": [
    "C54_run_exact",
    "C54_connect_exact",
    "C54_tokio",
    "C54_smol_partial",
    "C54_refuted"
   ],
   "note": "Proved for tokio. Refuted for smol in debug and release builds; for smol in release builds proved when the broker sends MQTT 5 packets and connect has returned. C54_run_exact and C54_connect_exact: for smol, exactly which bytes panic run and connect, for any bytes in any pieces."
  },
  {
   "property": "C55",
   "status": "partial",
   "theorems": [
    "C55_refines",
    "C55_any",
    "C55_returns_partial",
    "C55_channel_stuck",
    "C55_id_stuck",
    "C55_channel_refuted",
    "C55_id_refuted"
   ],
   "note": "Refinement proved for every handler. Returning is proved when channel and pool have room for the calls; otherwise the network task is stuck for ever (proved for every such state), and such states are reached by the crate's own PingPong (refuted)."
  },
  {
   "property": "C56",
   "status": "partial",
   "theorems": [
    "C56_ping_pong_partial",
    "C56_no_echo",
    "C56_accepted",
    "C56_refuted"
   ],
   "note": "PingPong characterised exactly. It panics on texts in which a character spans byte 10 (refuted), and in debug builds when its counter overflows."
  },
  {
   "property": "C57",
   "status": "partial",
   "theorems": [
    "C57_bytes_partial",
    "C57_lawful_partial",
    "C57_tried_partial",
    "C57_wildcard_refuted",
    "C57_topic_refuted",
    "C57_subscribe_refuted"
   ],
   "note": "Proved for calls whose arguments have valid types, properties that fit, and at least one topic. Refuted for topics with wildcards, absent topics and SUBSCRIBE without topics, which the client sends."
  },
  {
   "property": "C58",
   "status": "partial",
   "theorems": [
    "C58_framed",
    "C58_stops_partial",
    "C58_parsed_partial",
    "C58_stops_refuted"
   ],
   "note": "Framing proved for both clients. Nothing after a failed write: proved for smol, and for tokio unless the failed write is a retransmission (refuted there). Unique reading proved for valid calls."
  },
  {
   "property": "C59",
   "status": "partial",
   "theorems": [
    "C59_receive_maximum_partial",
    "C59_size_partial",
    "C59_own_size",
    "C59_refuted",
    "C59_disconnect_refuted"
   ],
   "note": "The announced limits are not looked at (refuted). Proved: they are kept if the client's own options are at least as strict."
  },
  {
   "property": "C60",
   "status": "proved",
   "theorems": [
    "C60_run",
    "C60_connect",
    "C60_serialise",
    "C60_connect_serialise",
    "C60_bytes"
   ],
   "note": "Causes are stated on the log. Read errors are those the readers can give (true of executions that start from bytes, C60_bytes)."
  },
  {
   "property": "C61",
   "status": "partial",
   "theorems": [
    "C61_like_failure_partial",
    "C61_identifiers_partial",
    "C61_once_partial",
    "C61_handler_refuted",
    "C61_ack_refuted",
    "C61_request_refuted",
    "C61_ping_refuted"
   ],
   "note": "Proved by simulation for programs that reconnect before they run again. Refuted: run again on the same connection loses acknowledgements and requests; smol keeps an unanswered ping across connections; a QoS 2 message whose handler was dropped is acknowledged and not handed over again."
  },
  {
   "property": "C62",
   "status": "partial",
   "theorems": [
    "C62_prefix_partial",
    "C62_complete",
    "C62_refuted"
   ],
   "note": "Proved when nothing follows a cut write. Refuted otherwise, for both runtimes: the reader finds a packet that nobody sent."
  },
  {
   "property": "C63",
   "status": "proved",
   "theorems": [
    "C63_language",
    "C63_disconnect",
    "C63_unexpected",
    "C63_missing"
   ],
   "note": "Refinement to the automaton of SpecNet.v, with three corollaries."
  },
  {
   "property": "C64",
   "status": "proved",
   "theorems": [
    "C64_not_early"
   ],
   "note": "Both runtimes."
  },
  {
   "property": "C65",
   "status": "partial",
   "theorems": [
    "C65_stream_count_partial",
    "C65_each_other_type_refuted"
   ],
   "note": "The returned count is always right. The announced length is respected for PUBLISH, PUBCOMP and SUBACK; for each of the other twelve types a frame is shown where the reader takes too much or too little."
  },
  {
   "property": "C66",
   "status": "partial",
   "theorems": [
    "C66_buffer_partial",
    "C66_stream_partial",
    "C66_buffer_refuted",
    "C66_stream_refuted"
   ],
   "note": "Proved with the liberties marked in SpecLenient: integers not in their shortest form, reserved bits of CONNACK, CONNECT and SUBSCRIBE, bytes behind the last field, the property length of the acknowledgements, in the stream readers also the last of several subscription identifiers. The refutations show that such bytes, which no packet encodes, are read as packets."
  },
  {
   "property": "C67",
   "status": "partial",
   "theorems": [
    "C67_once_partial",
    "C67_wanted_partial",
    "C67_completed_partial",
    "C67_received_partial",
    "C67_acknowledged_partial",
    "C67_stages_partial",
    "C67_refuted"
   ],
   "note": "Joint transition system of the client model (System) and a nondeterministic specification of a conforming broker and of the connections (SpecWorld). Proved for brokers that say 'session present' only if they have not given up a session since they last told the client so (fair = true); otherwise refuted (C67_refuted: session lost at the broker and the CONNACK that says so lost on the way, which MQTT itself permits), so the loss is not a defect of the client alone. Also excluded: connect called while connected (observed). C67_once_partial/C67_wanted_partial: between the request and the passing on nothing else with the identifier happened, and the message passed on is the requested one up to the dup flag; C67_completed/received/acknowledged_partial: what the client reads as success was passed on."
  },
  {
   "property": "C68",
   "status": "proved",
   "theorems": [
    "C68_served",
    "C68_running"
   ],
   "note": "Handlers as programs (Handlers.v). served is an independent description of the log: handler calls, their requests as an ordered subsequence of what clients do, memory threaded through. asks describes the packet of a request without the model's build. Drops of the network future while the handler runs: C93."
  },
  {
   "property": "C69",
   "status": "partial",
   "theorems": [
    "C69_partial",
    "C69_smol",
    "C69_refuted"
   ],
   "note": "For any bytes. C69_smol is the full statement for smol (frames as lax as C66 says). For tokio, C69_partial needs that no read was abandoned in the middle of a packet; C69_refuted: a request that interrupts a read makes tokio take the payload of a message for a packet."
  },
  {
   "property": "C70",
   "status": "proved",
   "theorems": [
    "C70_bounded",
    "C70_rest",
    "C70_settles",
    "C70_end_of_stream"
   ],
   "note": "Own steps: reading what arrived, the end of a write, the return of the handler, taking a request. C70_bounded: only finitely many; C70_rest: when none is possible, connect or run has returned (or panicked, see C54) or nothing is left to read or send; C70_settles: such a state can be reached; C70_end_of_stream: after the end of the stream only by returning. smol may still keep bytes it has read (C53_stall_refuted)."
  },
  {
   "property": "C71",
   "status": "partial",
   "theorems": [
    "C71_expected",
    "C71_panics",
    "C71_no_panic",
    "C71_no_panic_refuted",
    "C71_errors"
   ],
   "note": "The broker (SpecPolite.v) need not remember anything and may answer out of order; C71_expected: every acknowledgement read is awaited; C71_no_panic needs send maximum <= receive maximum (true for the default options), C71_no_panic_refuted shows why; C71_errors: read errors of the connection itself are excluded (they end run with Io or DeserializationError)."
  },
  {
   "property": "C72",
   "status": "partial",
   "theorems": [
    "C72_bounded",
    "C72_rests",
    "C72_answered",
    "C72_reason",
    "C72_answered_refuted"
   ],
   "note": "Termination of the joint work is for every order of steps and with any broker of SpecSettle.v; new calls, the clock, read errors and unsolicited packets are not part of the work (they may have happened before). C72_answered needs that no write failed on the connection; C72_answered_refuted: the tokio client ignores a failed retransmission, so its publish stays unanswered on a connection it calls connected."
  },
  {
   "property": "C73",
   "status": "partial",
   "theorems": [
    "C73_log",
    "C73_once",
    "C73_acknowledged",
    "C73_received_partial",
    "C73_received_refuted"
   ],
   "note": "The broker (SpecSource.v) may cut the connection at any time, ignore packets, forget its session when not connected, and send other packets. Full statement false for QoS 2: a message whose first transmission is lost with the connection is sent again with DUP, acknowledged by the client and never handed over (C73_received_refuted, both runtimes); C73_received_partial is the rest."
  },
  {
   "property": "C74",
   "status": "proved",
   "theorems": [
    "C74_buffer",
    "C74_stream",
    "C74_stream_any",
    "C74_long_refused"
   ],
   "note": "Equivalence between what is returned and what the bytes say. C74_stream is for frames consumed exactly, C74_stream_any for any bytes and any announced length. SpecLenient lists the encodings, SpecAccept the restrictions of each reader."
  },
  {
   "property": "C75",
   "status": "proved",
   "theorems": [
    "C75_subscribe",
    "C75_unsubscribe"
   ],
   "note": "Topics.v lists the argument types; the specification (SpecTopics.v) writes the bytes of MQTT 5 directly. Empty lists and refused calls are C16 and C17."
  },
  {
   "property": "C76",
   "status": "partial",
   "theorems": [
    "C76_refines",
    "C76_once",
    "C76_never_blocks",
    "C76_returns",
    "C76_errors_partial",
    "C76_invalid",
    "C76_errors_refuted"
   ],
   "note": "C76_errors_partial is for a network that is completely dropped. Full statement (from the moment its fields begin to be dropped) is false: the session goes before the request channel, a call in between returns Ok and its request is never written (C76_errors_refuted)."
  },
  {
   "property": "C77",
   "status": "partial",
   "theorems": [
    "C77_log",
    "C77_once_partial",
    "C77_wanted_partial",
    "C77_completed_partial",
    "C77_received_partial",
    "C77_acknowledged_partial",
    "C77_stages_partial",
    "C77_torn_refuted"
   ],
   "note": "C67 for the client of Wire.v (bytes) and a broker on the other side of a byte stream (SpecBytes.v): client and broker never share packets, only bytes; proved by simulation into C67's system, using the codec, framing and reading theorems. Full statement: without fair (C67_refuted shows it is needed) and, for tokio, also when a read is abandoned in the middle of a packet: false (C77_torn_refuted: the client is told that a QoS 1 publish succeeded and the broker passed nothing on). Also excluded: connect called while connected."
  },
  {
   "property": "C78",
   "status": "partial",
   "theorems": [
    "C78_log",
    "C78_once_partial",
    "C78_acknowledged_partial",
    "C78_received_partial",
    "C78_received_refuted",
    "C78_torn_refuted"
   ],
   "note": "C73 for the client of Wire.v (bytes) and a broker on the other side of a byte stream (SpecCarry.v), by the same simulation as C77. Full statement: also for a tokio client that abandons a read in the middle of a packet: false (C78_torn_refuted: the application is handed a QoS 1 message that the broker never sent). For QoS 2 the condition of C78_received_partial is needed (C78_received_refuted). Also excluded: connect called while connected."
  },
  {
   "property": "C79",
   "status": "partial",
   "theorems": [
    "C79_expected_partial",
    "C79_panics_partial",
    "C79_no_panic_partial",
    "C79_errors_partial",
    "C79_decoded_partial",
    "C79_torn_refuted",
    "C79_split_refuted"
   ],
   "note": "C71 for the client of Wire.v (bytes) and a broker on the other side of a byte stream (SpecCarry.v), by the same simulation as C77; C79_decoded_partial and the w_dead half of C79_no_panic_partial have no counterpart in C71. Full statement: also for a tokio client that abandons a read in the middle of a packet: false (C79_torn_refuted: it panics), and no panic with smol: false (C79_split_refuted: a CONNACK in pieces). Also excluded: connect called while connected."
  },
  {
   "property": "C80",
   "status": "partial",
   "theorems": [
    "C80_ends_partial",
    "C80_answered_partial",
    "C80_reason_partial",
    "C80_smol_refuted",
    "C80_torn_refuted"
   ],
   "note": "C72 for the client of Wire.v (bytes) and the answering broker on the other side of a byte stream (SpecLabour.v). New calls, the clock, read errors and unsolicited packets are not part of the work (they may have happened before). Full statement: also for a tokio client that abandons a read in the middle of a packet: false (C80_torn_refuted: it waits for a packet that nobody sent), and C80_answered for smol: false (C80_smol_refuted: of two acknowledgements that arrive together the second one is never looked at). As in C72, no write may have failed on the connection."
  },
  {
   "property": "C81",
   "status": "proved",
   "theorems": [
    "C81_calls",
    "C81_fate",
    "C81_written",
    "C81_resent"
   ],
   "note": "Proved for every execution of System.v. Calls that wait for an identifier have not started; a call dropped meanwhile leaves no trace (C55)."
  },
  {
   "property": "C82",
   "status": "partial",
   "theorems": [
    "C82_allowed_partial",
    "C82_refuted"
   ],
   "note": "Proved under the hypothesis that the application makes only allowed calls. Full statement: for all calls; false, because the client checks nothing but lengths (C82_refuted: eleven forbidden calls, each is written). The broker's topic alias maximum is not part of it."
  },
  {
   "property": "C83",
   "status": "proved",
   "theorems": [
    "C83_blind",
    "C83_writes"
   ],
   "note": "A 2-safety property over System.v, by a functional simulation; the handler belongs to the application and may of course look at everything (its calls are events). C83_sharp: every part that is looked at does have an influence. With C59 it means that the broker's limits are not merely violated in some run but never looked at."
  },
  {
   "property": "C84",
   "status": "partial",
   "theorems": [
    "C84_order_partial",
    "C84_all_partial",
    "C84_no_error_partial",
    "C84_smol",
    "C84_resume",
    "C84_tokio",
    "C84_torn_refuted"
   ],
   "note": "The invariants of C53 carried over to Wire.v with dropped futures (WireDrop.v). Proved when no tokio read was abandoned within a packet; smol never abandons one. Refuted for tokio: run dropped in the middle of a message and called again reads the payload as a PUBACK that the broker never sent. smol's stall (C53_stall_refuted) is why completeness is for tokio only."
  },
  {
   "property": "C85",
   "status": "proved",
   "theorems": [
    "C85_opaque"
   ],
   "note": "Equivariance of System.v, for all events including ones that are not enabled (None maps to None). C85_sharp: lengths do matter. Properties (user properties, content type, ...) and the will are not renamed."
  },
  {
   "property": "C86",
   "status": "proved",
   "theorems": [
    "C86_swap",
    "C86_delay",
    "C86_advance"
   ],
   "note": "A diamond property of System.v. 'The same' is all of the state except the order of the log; the log as seen by the handles and as seen by the network are equal, with times. Needs the capacity invariant (no panic in mark_available, C23) and that no call waits once the handles are gone. C86_sharp: dropping the last handle does not commute. Two steps of different calls do not commute either (the identifiers differ), nor does the passing of time."
  },
  {
   "property": "C87",
   "status": "proved",
   "theorems": [
    "C87_agree"
   ],
   "note": "A refinement in both directions at the level of packets (System.v): the relation is rel in AgreeFacts.v. It ignores the fields that only the timers read (last write, pending ping) and the keep-alive interval that tokio takes over from the broker (C44). A failure of smol's write of an empty buffer corresponds to a read error in tokio. How the two streams cut bytes into packets is different (C77, C80) and is not part of this. C87_auth and C87_torn show why the two conditions are there."
  },
  {
   "property": "C88",
   "status": "proved",
   "theorems": [
    "C88_labels"
   ],
   "note": "An equality of executions, as C85 for topics: exec of the renamed events is the renamed result of exec, also when there is none. The set of incoming identifiers is a sorted list, renamed and sorted again. Incoming and outgoing identifiers are separate spaces: only the first are renamed. For the client's own identifiers this would be false: the PUBRELs of a resumed session go out in the order of their numbers. C88_sharp: a function that is not one-to-one makes the client take two messages for one."
  },
  {
   "property": "C89",
   "status": "proved",
   "theorems": [
    "C89_session",
    "C89_as_new"
   ],
   "note": "Proved. SpecHold.v builds the state from the ledger of SpecSession.v and the list of received messages of SpecTrace.v. The order of the free identifiers is not determined by it; how identifiers are lost (SpecSession.loses) is the subject of other claims."
  },
  {
   "property": "C90",
   "status": "proved",
   "theorems": [
    "C90_pause"
   ],
   "note": "Proved. For smol this needs that await_pingresp is cleared whenever run returns (TimeFacts.time_inv); dropping the future of run is outside this claim (C61, C84). C90_sharp shows that time between connect and run does matter."
  },
  {
   "property": "C91",
   "status": "partial",
   "theorems": [
    "C91_requests_partial",
    "C91_messages_partial",
    "C91_packets_partial",
    "C91_incoming_partial",
    "C91_tokio_partial",
    "C91_lawful_partial",
    "C91_tokio_refuted",
    "C91_smol_refuted"
   ],
   "note": "Proved for everything but the bytes taken from the connection. Tokio: they are always those of a packet that is not complete yet (C91_tokio_partial), but the stream reader goes on past the announced length, a message with a wrong property length is read without end (C91_tokio_refuted). Smol: when every chunk brings two packets only one is looked at, and the buffer holds any number of whole packets (C91_smol_refuted, the stall of C80). Memory itself and the channel are not modelled here."
  },
  {
   "property": "C92",
   "status": "partial",
   "theorems": [
    "C92_taken_partial",
    "C92_receive_refuted",
    "C92_size_refuted",
    "C92_alias_refuted"
   ],
   "note": "False (C92_receive_refuted, C92_size_refuted, C92_alias_refuted): the limits are announced only. Proved instead: whatever limits were announced, every PUBLISH is read without an error and handed over unless it is a repetition (C92_taken_partial)."
  },
  {
   "property": "C93",
   "status": "partial",
   "theorems": [
    "C93_refines",
    "C93_attended",
    "C93_running",
    "C93_frees_partial",
    "C93_connect_partial",
    "C93_lost_refuted",
    "C93_careful_partial",
    "C93_once_partial",
    "C93_identifiers_partial"
   ],
   "note": "The network task is freed (C93_frees_partial, C93_connect_partial), the log of handler calls is as it should be (C93_attended, C93_running), and everything proved about dropped futures applies (C93_refines; with a new connection after each drop: C93_careful_partial, C93_once_partial, C93_identifiers_partial). Not proved because false: the identifier of the request that the handler was making never returns to the pool; ten drops can use up ten identifiers with nothing written (C93_lost_refuted). A handler that is cut off may leave anything in its memory; a handler that has panicked is not dropped."
  },
  {
   "property": "C94",
   "status": "partial",
   "theorems": [
    "C94_recovers_partial",
    "C94_refuted",
    "C94_exact",
    "C94_connectable"
   ],
   "note": "Proved for every reachable state in which the network task has not panicked, given that CONNECT has an encoding. After a panic it is false (C94_refuted). When all handles are dropped, the first attempt can fail because identifiers cannot be given back; the second succeeds. C94_exact: a panic and an unserialisable CONNECT are the only obstacles. C94_connectable: a client can be connected at all exactly if its CONNECT has an encoding."
  }
 ]
}