{"id": "C01", "title": "Variable byte integers round-trip, are minimal and bounded", "statement": "Every integer up to 268435455 is written as a variable byte integer of 1 to 4 bytes, exactly as many as the announced length, the fewest possible, and every reader (buffer, fixed-header, stream) reads the same integer back, consuming exactly those bytes whatever follows. Larger integers are refused with an error.", "quantifier": "every natural number and every trailing byte string", "why_tests_cant": "2^28 values times every continuation; a table of examples leaves boundaries between length classes unchecked.", "anchors": ["mqrstt/src/packets/primitive/variable_integer.rs: read_fixed_header_rem_len, async_read_fixed_header_rem_len, VariableInteger for usize/u32"]}
{"id": "C02", "title": "Variable byte integer readers classify every input", "statement": "On any byte string a variable-integer reader either returns a value below 2^28 having consumed 1 to 4 bytes, or asks for one more byte exactly when the input is shorter than 4 bytes and all continuation bits are set, or reports a malformed packet exactly when the first four bytes all carry a continuation bit.", "quantifier": "every byte string", "why_tests_cant": "All byte strings, including hostile ones; the failure classes are defined by unbounded inputs.", "anchors": ["mqrstt/src/packets/primitive/variable_integer.rs", "mqrstt/src/packets/primitive/fixed_header.rs: read_fixed_header"]}
{"id": "C03", "title": "Written packets read back unchanged (buffer codec)", "statement": "A well-formed packet of any of the 15 types that the buffer writer accepts is read back by Packet::read as the same packet, leaving exactly the bytes that followed it in the buffer.", "quantifier": "every well-formed packet of every type, with any properties, and every trailing byte string", "why_tests_cant": "Unbounded strings, payloads, property combinations and trailing data.", "anchors": ["mqrstt/src/packets/mod.rs: Packet::write, Packet::read, Packet::read_packet", "mqrstt/src/packets/*/mod.rs: PacketRead, PacketWrite", "mqrstt/src/packets/*/properties.rs"]}
{"id": "C04", "title": "Written packets read back unchanged (stream codec)", "statement": "A well-formed packet written by the asynchronous writer is read by the asynchronous reader as the same packet, consuming exactly its bytes and nothing of what follows in the stream.", "quantifier": "every well-formed packet of every type and every following byte stream", "why_tests_cant": "Unbounded inputs; over-reading shows only for particular following bytes.", "anchors": ["mqrstt/src/packets/mod.rs: Packet::async_write, Packet::async_read", "mqrstt/src/packets/macros/properties_macros.rs", "mqrstt/src/packets/*/mod.rs: PacketAsyncRead, PacketAsyncWrite"]}
{"id": "C05", "title": "The two runtimes speak the same language", "statement": "Whatever one codec (buffer or stream) writes for a well-formed packet, the other reads as the same packet.", "quantifier": "every well-formed packet, both directions", "why_tests_cant": "Needs agreement of two independent implementations on an infinite domain.", "anchors": ["mqrstt/src/packets/mod.rs: Packet::{write,read,async_write,async_read}", "mqrstt/src/packets/macros/properties_macros.rs"]}
{"id": "C06", "title": "The announced remaining length is the number of body bytes", "statement": "For every well-formed packet both writers emit exactly as many body bytes as the remaining length in the fixed header says, and the length the packet reports for itself equals the number of bytes put on the wire.", "quantifier": "every well-formed packet of every type", "why_tests_cant": "A one-byte disagreement desynchronises the whole connection; it only needs one property combination no test has tried.", "anchors": ["mqrstt/src/packets/mqtt_trait/mod.rs: WireLength", "mqrstt/src/packets/macros/properties_macros.rs: wire_len", "mqrstt/src/packets/*/mod.rs: wire_len"]}
{"id": "C07", "title": "Decoding arbitrary bytes never panics", "statement": "Whatever bytes a peer sends, both decoders terminate with a packet, an error or a request for more data; they never panic or loop.", "quantifier": "every byte string", "why_tests_cant": "Hostile input space is infinite; fuzzing only samples it.", "anchors": ["mqrstt/src/packets/mod.rs: Packet::read, Packet::async_read", "mqrstt/src/packets/connect/mod.rs: Connect::read", "mqrstt/src/packets/connect/connect_properties.rs"]}
{"id": "C08", "title": "A truncated packet is never an error and never consumes input", "statement": "Given any strict prefix of a written packet, Packet::read asks for more data, leaves the buffer untouched, and the amount it asks for never exceeds what is really missing.", "quantifier": "every well-formed packet and every strict prefix of its encoding", "why_tests_cant": "Every cut point of every packet.", "anchors": ["mqrstt/src/packets/mod.rs: Packet::read", "mqrstt/src/packets/primitive/fixed_header.rs"]}
{"id": "C09", "title": "A read consumes exactly one frame", "statement": "When Packet::read does not ask for more data and does not reject the header, exactly the fixed header plus the remaining length is removed from the buffer, whether the body is accepted or rejected, and the result depends only on those bytes.", "quantifier": "every byte string and every extension of it", "why_tests_cant": "Statement about all inputs and all suffixes.", "anchors": ["mqrstt/src/packets/mod.rs: Packet::read"]}
{"id": "C10", "title": "Fragmentation does not matter", "statement": "However the bytes of a sequence of written packets are split into network chunks, feeding the chunks to a buffer and calling Packet::read until it asks for more yields exactly the packets, in order, each once.", "quantifier": "every sequence of packets and every way of cutting its bytes into chunks", "why_tests_cant": "Exponentially many cuts of unboundedly long streams.", "anchors": ["mqrstt/src/packets/mod.rs: Packet::read"]}
{"id": "C11", "title": "Decoded packets are well formed and can be written again", "statement": "Every packet produced by the buffer decoder satisfies the type invariants (identifiers in 16 bits, strings of valid UTF-8 of at most 65535 bytes, known reason codes, properties only of the kinds its type allows), whatever the input bytes.", "quantifier": "every byte string accepted by the decoder", "why_tests_cant": "Infinite set of accepted inputs, including non-canonical ones.", "anchors": ["mqrstt/src/packets/mod.rs: Packet::read", "mqrstt/src/packets/mqtt_trait/primitive_impl.rs"]}
{"id": "C12", "title": "Different packets have different encodings", "statement": "Two different well-formed packets are never written as the same bytes, and no packet's encoding is a proper prefix of another's.", "quantifier": "all pairs of well-formed packets", "why_tests_cant": "Pairs of unbounded values.", "anchors": ["mqrstt/src/packets/mod.rs: Packet::write"]}
{"id": "C13", "title": "Duplicate and foreign properties are refused", "statement": "A property section in which a property other than User Property (or a PUBLISH Subscription Identifier) occurs twice, or in which a property occurs that the packet type does not allow, is refused by both decoders.", "quantifier": "every property section of every packet type", "why_tests_cant": "All sequences of properties, of any length.", "anchors": ["mqrstt/src/packets/*/properties.rs: MqttRead", "mqrstt/src/packets/macros/properties_macros.rs"]}
{"id": "C14", "title": "Reason codes: exactly the listed values are accepted and survive a round trip", "statement": "For each packet type, reading the byte written for a reason code gives that code back, different codes use different bytes, and any byte not belonging to a code of that type is refused.", "quantifier": "every byte and every reason code of each of the eight reason-code types", "why_tests_cant": "256 bytes times 8 types, plus the requirement that nothing else is accepted.", "anchors": ["mqrstt/src/packets/macros/reason_code_macros.rs", "mqrstt/src/packets/*/reason_code.rs"]}
{"id": "C15", "title": "Fixed headers: types and flags are recognised exactly", "statement": "The first byte of every written packet is recognised as that packet's type with its flags, and every first byte whose reserved flags are wrong is refused.", "quantifier": "every packet and every byte value", "why_tests_cant": "All first bytes; all packets.", "anchors": ["mqrstt/src/packets/mod.rs: PacketType::from_first_byte, Packet::write"]}
{"id": "C16", "title": "Over-long strings are not silently corrupted", "statement": "A packet containing a string or binary field longer than 65535 bytes is refused rather than written with a wrong length.", "quantifier": "every packet with some field longer than 65535 bytes", "why_tests_cant": "Inputs above 64 KiB in every field of every type.", "anchors": ["mqrstt/src/packets/mqtt_trait/primitive_impl.rs: MqttWrite for &str, Vec<u8>", "mqrstt/src/packets/publish/mod.rs: validate", "mqrstt/src/client.rs"]}
{"id": "C17", "title": "Accepted requests respect the maximum packet size", "statement": "If the client accepts a publish, subscribe or unsubscribe, the packet put on the wire is not longer than the configured maximum packet size.", "quantifier": "every request and every configured maximum", "why_tests_cant": "Boundary cases at every size, up to 256 MiB.", "anchors": ["mqrstt/src/client.rs: publish_with_properties, subscribe_with_properties, unsubscribe_with_properties", "mqrstt/src/packets/publish/mod.rs: validate", "mqrstt/src/connect_options.rs: maximum_packet_size"]}
{"id": "C18", "title": "Accepted requests can be transmitted", "statement": "If the client accepts a publish, subscribe or unsubscribe whose property strings fit in 65535 bytes, both writers succeed in writing it and a peer reads back exactly what the user asked for.", "quantifier": "every request", "why_tests_cant": "All topics, payloads and property combinations up to the size limit.", "anchors": ["mqrstt/src/client.rs", "mqrstt/src/packets/publish/mod.rs", "mqrstt/src/packets/subscribe/mod.rs", "mqrstt/src/packets/unsubscribe/mod.rs"]}
{"id": "C19", "title": "In-flight packet identifiers are unique, non-zero and bounded", "statement": "At every moment the identifiers of all requests that have not finished (waiting in the channel, sent but unacknowledged, or released) are pairwise distinct, lie in 1..=send_maximum, and none of them is offered to a new request.", "quantifier": "every history of client calls, network steps, broker packets, disconnections and reconnections", "why_tests_cant": "All interleavings of client tasks, broker behaviour and reconnects.", "anchors": ["mqrstt/src/available_packet_ids.rs", "mqrstt/src/client.rs", "mqrstt/src/state.rs", "mqrstt/src/state_handler.rs"]}
{"id": "C20", "title": "At most send_maximum requests in flight", "statement": "The number of acknowledged-type requests that have been accepted and have not finished never exceeds the configured send maximum, and the pool of identifiers never overflows (the unreachable branch is unreachable).", "quantifier": "every history", "why_tests_cant": "Overflow needs a particular history of acknowledgements and resets.", "anchors": ["mqrstt/src/available_packet_ids.rs: mark_available", "mqrstt/src/state_handler.rs"]}
{"id": "C21", "title": "Identifiers are not lost", "statement": "Whatever the broker answers and however connections end, every identifier is eventually back in the pool or belongs to a request that can still finish: none is lost for the life of the client.", "quantifier": "every history", "why_tests_cant": "Leaks only show after particular error replies and long runs.", "anchors": ["mqrstt/src/state_handler.rs: handle_incoming_pubrec", "mqrstt/src/state.rs: reset", "mqrstt/src/client.rs: publish_with_properties", "mqrstt/src/tokio/network.rs: tokio_select"]}
{"id": "C22", "title": "Identifiers are released exactly when their exchange ends", "statement": "An identifier returns to the pool precisely on the acknowledgement that ends its exchange (PUBACK for QoS 1, PUBCOMP for QoS 2, SUBACK, UNSUBACK) or when a reconnect abandons it, and never twice for one exchange.", "quantifier": "every history", "why_tests_cant": "All histories of replies, including duplicates and unsolicited ones.", "anchors": ["mqrstt/src/state_handler.rs", "mqrstt/src/state.rs"]}
{"id": "C23", "title": "No broker packet crashes the client", "statement": "Handling any packet the broker sends, in any reachable state, ends with a reply or an error, never with a panic.", "quantifier": "every reachable state and every incoming packet", "why_tests_cant": "Every identifier value in every state.", "anchors": ["mqrstt/src/state.rs: remove_outgoing_pub, add_outgoing_pub", "mqrstt/src/state_handler.rs: handle_incoming_packet"]}
{"id": "C24", "title": "Resuming a session retransmits exactly the unfinished publishes, in order", "statement": "When the broker resumes the session, the client sends again every QoS 1 and 2 publish that was sent and not yet acknowledged, each once, marked as duplicate, with unchanged content and in the original order, followed by a PUBREL for every released exchange, and nothing else.", "quantifier": "every history before the reconnect", "why_tests_cant": "The set and order depend on the entire history of sends and acknowledgements.", "anchors": ["mqrstt/src/state.rs: reset, add_outgoing_pub, remove_outgoing_pub", "mqrstt/src/state_handler.rs: handle_incoming_connack"]}
{"id": "C25", "title": "Without a resumed session nothing is retransmitted", "statement": "When the session is not resumed (or a clean start was asked for) nothing is retransmitted, all exchanges of the old session are forgotten, and acknowledgements for them are refused.", "quantifier": "every history before the reconnect", "why_tests_cant": "Every combination of unfinished exchanges.", "anchors": ["mqrstt/src/state.rs: reset", "mqrstt/src/state_handler.rs: handle_incoming_connack"]}
{"id": "C26", "title": "QoS 1 messages are acknowledged after delivery", "statement": "Every incoming QoS 1 publish is given to the handler exactly once and answered with exactly one PUBACK carrying its identifier; QoS 0 publishes are given to the handler once and never answered.", "quantifier": "every reachable state and every incoming publish", "why_tests_cant": "All states and packets.", "anchors": ["mqrstt/src/state_handler.rs: handle_incoming_publish", "mqrstt/src/tokio/network.rs: tokio_select", "mqrstt/src/smol/network.rs: smol_select"]}
{"id": "C27", "title": "QoS 2 messages are handed over at most once per exchange", "statement": "Within a connection, between the first QoS 2 publish with an identifier and the PUBREL that releases it, the handler sees that publish at most once however often the broker repeats it; every repetition is answered with PUBREC and the PUBREL with PUBCOMP.", "quantifier": "every sequence of incoming packets", "why_tests_cant": "Unbounded repetitions and interleavings with other identifiers.", "anchors": ["mqrstt/src/state_handler.rs: handle_incoming_publish, handle_incoming_pubrel", "mqrstt/src/state.rs: add_incoming_pub, remove_incoming_pub"]}
{"id": "C28", "title": "QoS 2 messages are handed over at least once", "statement": "A QoS 2 publish that is acknowledged with PUBREC has been given to the handler (then or earlier in the same exchange).", "quantifier": "every sequence of incoming packets and connections", "why_tests_cant": "Depends on the duplicate flag and on reconnect history.", "anchors": ["mqrstt/src/state_handler.rs: handle_incoming_publish", "mqrstt/src/state.rs: reset"]}
{"id": "C29", "title": "QoS 2 sending follows the protocol", "statement": "A PUBREL is sent only for an identifier whose publish has been acknowledged by a successful PUBREC and not yet completed; while it is pending the publish itself is never sent again; PUBCOMP completes it.", "quantifier": "every history", "why_tests_cant": "All interleavings with reconnects and unsolicited packets.", "anchors": ["mqrstt/src/state_handler.rs: handle_incoming_pubrec, handle_incoming_pubcomp", "mqrstt/src/state.rs"]}
{"id": "C30", "title": "Unsolicited acknowledgements are errors and change nothing", "statement": "An acknowledgement that does not match a pending exchange is reported as an error, frees no identifier and leaves all pending exchanges as they were.", "quantifier": "every reachable state and every incoming acknowledgement", "why_tests_cant": "All states times all identifiers and types.", "anchors": ["mqrstt/src/state_handler.rs: handle_incoming_puback, handle_incoming_pubrec, handle_incoming_pubcomp, handle_incoming_suback, handle_incoming_unsuback"]}
{"id": "C31", "title": "The handler runs before the acknowledgement is written", "statement": "In every execution the reply to an incoming packet is written only after the user's handler has returned for that packet, so that an acknowledged message has been processed.", "quantifier": "every execution of the network loop, both runtimes", "why_tests_cant": "Schedules and failures at every point.", "anchors": ["mqrstt/src/tokio/network.rs: tokio_select", "mqrstt/src/smol/network.rs: smol_select", "mqrstt/src/event_handlers.rs"]}
{"id": "C32", "title": "Requests are transmitted in order, once", "statement": "On every execution the requests written to the network are, in order, a prefix of the requests accepted by the client; none is written twice by the loop and none is skipped.", "quantifier": "every execution with any number of connections", "why_tests_cant": "All interleavings of producers, reads and reconnects.", "anchors": ["mqrstt/src/client.rs", "mqrstt/src/tokio/network.rs: tokio_select", "mqrstt/src/smol/network.rs: smol_select", "mqrstt/src/lib.rs: CHANNEL_SIZE"]}
{"id": "C33", "title": "Accepted QoS 1 and QoS 2 publishes are not lost", "statement": "A QoS 1 or 2 publish that the client accepted stays either in the channel or among the unacknowledged publishes (and so will be sent or retransmitted) until it is acknowledged or its session is abandoned.", "quantifier": "every execution, with a connection failure possible at every write", "why_tests_cant": "Crash points inside every write.", "anchors": ["mqrstt/src/tokio/network.rs: tokio_select", "mqrstt/src/smol/network.rs: smol_select", "mqrstt/src/state_handler.rs: handle_outgoing_publish"]}
{"id": "C34", "title": "After a client disconnect nothing more is written and the rest is kept", "statement": "After the client's DISCONNECT has been written no further packet is written on that connection, and the requests queued behind it are written, in order, on a later connection.", "quantifier": "every execution and every queue content", "why_tests_cant": "Depends on queue contents and schedule.", "anchors": ["mqrstt/src/client.rs: disconnect", "mqrstt/src/tokio/network.rs: tokio_select", "mqrstt/src/smol/network.rs: smol_select"]}
{"id": "C35", "title": "Once run has returned the connection is gone", "statement": "After run has returned, for whatever reason, another run returns the no-network error without reading or writing, until connect succeeds.", "quantifier": "every execution", "why_tests_cant": "Every way a run can end.", "anchors": ["mqrstt/src/tokio/network.rs: run", "mqrstt/src/smol/network.rs: run"]}
{"id": "C36", "title": "Connections are opened only by a successful CONNACK", "statement": "connect succeeds only if the first packet from the broker is a CONNACK with the success code; otherwise it returns an error, the handler is not called, and session state and identifiers are unchanged.", "quantifier": "every first packet and every state", "why_tests_cant": "All possible first packets in all states.", "anchors": ["mqrstt/src/tokio/stream.rs: connect", "mqrstt/src/smol/stream.rs: connect", "mqrstt/src/tokio/network.rs: connect", "mqrstt/src/smol/network.rs: connect"]}
{"id": "C37", "title": "The keep-alive promise is kept (tokio)", "statement": "With a non-zero keep-alive interval the tokio client never lets more than that interval pass between two consecutive writes while a connection is running.", "quantifier": "every timed execution in which timers fire when due", "why_tests_cant": "All timings of traffic in both directions.", "anchors": ["mqrstt/src/tokio/network.rs: tokio_select"]}
{"id": "C38", "title": "A dead broker is detected (tokio)", "statement": "If a PINGREQ has not been answered when a full keep-alive interval has passed since it was sent, the client writes DISCONNECT with reason Keep Alive Timeout and run returns that status; it never does so while no PINGREQ is outstanding or before the interval has passed.", "quantifier": "every timed execution", "why_tests_cant": "All timings.", "anchors": ["mqrstt/src/tokio/network.rs: tokio_select"]}
{"id": "C39", "title": "Keep-alive zero means no keep-alive", "statement": "When the effective keep-alive interval is zero the client never sends PINGREQ and never disconnects for keep-alive reasons.", "quantifier": "every timed execution, both runtimes", "why_tests_cant": "Depends on arbitrarily long idle times.", "anchors": ["mqrstt/src/tokio/network.rs", "mqrstt/src/smol/network.rs: smol_select"]}
{"id": "C40", "title": "The keep-alive promise is kept (smol)", "statement": "With a non-zero keep-alive interval the smol client never lets more than that interval pass between two consecutive writes while a connection is running.", "quantifier": "every timed execution in which timers fire when due", "why_tests_cant": "All timings of traffic in both directions.", "anchors": ["mqrstt/src/smol/network.rs: smol_select"]}
{"id": "C41", "title": "The smol reader delivers every complete packet", "statement": "However the broker's bytes arrive, the smol client hands the packets over in order, without loss, duplication or invention, and has handed over every packet whose bytes have all arrived.", "quantifier": "every packet sequence and every chunking", "why_tests_cant": "All chunkings of unbounded streams.", "anchors": ["mqrstt/src/smol/stream.rs: parse_message, read_bytes", "mqrstt/src/smol/network.rs: smol_select"]}
{"id": "C42", "title": "Interrupting a read loses nothing (tokio)", "statement": "When an outgoing request or a timer interrupts the reading of a packet of which only a part has arrived, no byte of that packet is lost and it is delivered later.", "quantifier": "every point of interruption", "why_tests_cant": "Needs a particular race between network and timer.", "anchors": ["mqrstt/src/tokio/network.rs: tokio_select", "mqrstt/src/tokio/stream.rs: read_packet"]}
{"id": "C43", "title": "A fragmented CONNACK is handled (smol)", "statement": "However the bytes of the broker's CONNACK are split, connect obtains that CONNACK.", "quantifier": "every CONNACK and every chunking", "why_tests_cant": "All chunkings.", "anchors": ["mqrstt/src/smol/stream.rs: read, read_required_bytes, connect"]}
{"id": "C44", "title": "The CONNECT packet says what the options say", "statement": "The CONNECT packet written by connect carries the client identifier, credentials, will, clean-start flag, properties and keep-alive interval of the options, and a peer decodes exactly these.", "quantifier": "every set of options", "why_tests_cant": "All combinations of options and values.", "anchors": ["mqrstt/src/connect_options.rs: create_connect_from_options", "mqrstt/src/packets/connect/mod.rs"]}
{"id": "C45", "title": "Options setters keep the configured limits", "statement": "Setting the maximum packet size accepts exactly values up to 268435455 and a later read of the option returns the value set; receive and send maximum default to 65535 when unset.", "quantifier": "every value", "why_tests_cant": "All values, including the boundary.", "anchors": ["mqrstt/src/connect_options.rs: set_maximum_packet_size, maximum_packet_size, receive_maximum, send_maximum"]}
{"id": "C46", "title": "Property tables are those of MQTT 5", "statement": "For every packet type the set of properties the library reads and writes is exactly the set MQTT 5 allows in that packet.", "quantifier": "every packet type and every property", "why_tests_cant": "A table of 14 by 27 entries is checked against the standard as a whole, and through the decoders for arbitrary packets.", "anchors": ["mqrstt/src/packets/*/properties.rs: define_properties!"]}
{"id": "C47", "title": "Reason codes have their MQTT 5 numbers", "statement": "Every reason code is written as the number MQTT 5 assigns to it, and for each packet type exactly the numbers MQTT 5 lists are accepted.", "quantifier": "every packet type, every byte", "why_tests_cant": "Exhaustive over types and bytes with arbitrary trailing data.", "anchors": ["mqrstt/src/packets/*/reason_code.rs", "mqrstt/src/packets/macros/reason_code_macros.rs"]}
{"id": "C49", "title": "Every MQTT 5 encoding of a packet is understood", "statement": "Whatever encoding MQTT 5 allows for a packet (properties in any order, optional parts left out or present) both decoders return that packet.", "quantifier": "every well-formed packet, every encoding of it, every trailing byte string", "why_tests_cant": "Tests use the encodings the library itself writes; brokers order properties differently.", "anchors": ["mqrstt/src/packets/mod.rs: Packet::read, Packet::async_read"]}
{"id": "C50", "title": "What is written is MQTT 5", "statement": "Whatever a writer reports as written is an encoding of the packet according to the MQTT 5 standard.", "quantifier": "every well-formed packet, both writers", "why_tests_cant": "Round-trip tests cannot detect a mistake made symmetrically in reader and writer.", "anchors": ["mqrstt/src/packets/mod.rs: Packet::write, Packet::async_write"]}
{"id": "C51", "title": "Strings are exactly UTF-8", "statement": "A string field is accepted by the decoders if and only if its bytes are a sequence of UTF-8 encoded Unicode scalar values.", "quantifier": "every byte string of at most 65535 bytes", "why_tests_cant": "All byte strings, including surrogates, overlong forms and truncated sequences.", "anchors": ["mqrstt/src/packets/mqtt_trait/primitive_impl.rs: MqttRead and MqttAsyncRead for Box<str>"]}
{"id": "C52", "title": "The client on bytes behaves as the client on packets", "statement": "Whatever bytes arrive, in whatever pieces, the client does what the packet-level client can do; and every behaviour of the packet-level client with packets that a broker can send occurs with bytes.", "quantifier": "every configuration, every execution, every division of the bytes into pieces", "why_tests_cant": "Infinitely many executions and divisions; needed to carry every other theorem about executions to the client that reads bytes.", "anchors": ["mqrstt/src/tokio/network.rs: Network::connect, Network::run", "mqrstt/src/smol/network.rs: Network::connect, Network::run", "mqrstt/src/tokio/stream.rs: StreamExt", "mqrstt/src/smol/stream.rs: Stream"]}
{"id": "C53", "title": "The application is given what the broker sent, in order", "statement": "The messages of QoS 0 and 1 given to the handler on a connection are those whose bytes have arrived completely, in the order in which the broker sent them, none lost, invented or repeated; reading them does not end with a deserialisation error.", "quantifier": "every configuration, every execution, every sequence of MQTT 5 packets sent by the broker, every division into pieces, every interleaving with requests and timers", "why_tests_cant": "The failures need a particular division of the bytes or a request at a particular moment.", "anchors": ["mqrstt/src/tokio/network.rs: Network::run select! L129", "mqrstt/src/tokio/stream.rs: StreamExt::read_packet", "mqrstt/src/smol/network.rs: Network::run", "mqrstt/src/smol/stream.rs: Stream::parse_message, read_bytes, read_required_bytes"]}
{"id": "C54", "title": "No bytes of the broker panic the reading of packets", "statement": "The network task does not panic while it reads packets, whatever bytes arrive.", "quantifier": "every configuration, every execution, every sequence of bytes in every division, debug and release builds", "why_tests_cant": "All byte sequences in all divisions.", "anchors": ["mqrstt/src/tokio/stream.rs: StreamExt::read_packet", "mqrstt/src/smol/stream.rs: Stream::parse_message, read_required_bytes"]}
{"id": "C55", "title": "A handler may use the client", "statement": "Whatever handler the user supplies, the client does nothing that the model with an abstract handler does not do; and a handler that awaits client calls gets to its end.", "quantifier": "every handler (a program of client calls per packet, with memory), every configuration, every execution", "why_tests_cant": "The deadlock needs a full channel or exhausted identifiers at the moment the handler calls.", "anchors": ["mqrstt/src/event_handlers.rs: AsyncEventHandler, example_handlers", "mqrstt/src/tokio/network.rs: handler.handle(packet).await", "mqrstt/src/smol/network.rs: handler.handle(packet).await", "mqrstt/src/lib.rs: CHANNEL_SIZE"]}
{"id": "C56", "title": "The example handlers work", "statement": "PingPong answers every publish whose text contains ping with a pong on the same topic with the same QoS and retain flag, answers nothing else, and does not panic.", "quantifier": "every packet, every counter value, debug and release builds", "why_tests_cant": "All payloads, in particular texts in which a character spans byte 10.", "anchors": ["mqrstt/src/event_handlers.rs: example_handlers::PingPong, PingResp"]}
{"id": "C57", "title": "Only lawful packets are written", "statement": "Every packet that the client writes, whoever asked for it, is well formed according to MQTT 5, is written as an encoding of it, and is of a kind allowed for its purpose: identifiers of requests are not 0, DUP is set exactly on publishes that are sent again, retransmissions have QoS 1 or 2, replies carry success and no properties.", "quantifier": "every configuration made with the setters, every execution with calls of valid type, every packet written", "why_tests_cant": "It must hold after any history of calls, broker packets, failures and reconnections.", "anchors": ["mqrstt/src/tokio/stream.rs: write_packet, write_packets", "mqrstt/src/smol/stream.rs: write_packet, write_packets", "mqrstt/src/state_handler.rs", "mqrstt/src/client.rs", "mqrstt/src/connect_options.rs: create_connect_from_options"]}
{"id": "C58", "title": "Each connection carries CONNECT, packets, and at most one final DISCONNECT", "statement": "On every connection the first packet is CONNECT and no other packet is CONNECT; nothing follows DISCONNECT; nothing is written after a write that failed; the bytes sent can be read in only one way, as the packets written.", "quantifier": "every configuration, every reachable state, every connection so far", "why_tests_cant": "Orders of failures, disconnects and reconnects are unbounded.", "anchors": ["mqrstt/src/tokio/network.rs: connect, run", "mqrstt/src/smol/network.rs: connect, run", "mqrstt/src/tokio/stream.rs: connect, write_packets", "mqrstt/src/smol/stream.rs: connect, write_packets"]}
{"id": "C59", "title": "The limits announced in CONNACK are kept", "statement": "The client keeps the receive maximum, maximum QoS, retain availability and maximum packet size that the broker announces in CONNACK.", "quantifier": "every configuration, every execution, every CONNACK", "why_tests_cant": "The number of unfinished publishes depends on the whole history, also on earlier connections.", "anchors": ["mqrstt/src/state_handler.rs", "mqrstt/src/client.rs", "mqrstt/src/packets/connack/properties.rs", "mqrstt/src/tokio/network.rs", "mqrstt/src/smol/network.rs"]}
{"id": "C60", "title": "run and connect return a result only for its cause", "statement": "Whenever run or connect returns, the log before it shows the cause: a DISCONNECT read and handed over, a DISCONNECT written for the client, the keep-alive DISCONNECT, no connection, no client left and no request left, a packet the session refuses, a failed read or write, a refusal or another packet instead of CONNACK. ShutdownSignal is never returned. A serialisation error means that a packet tried has no MQTT 5 encoding. The same holds for executions that start from bytes.", "quantifier": "every configuration, every execution, every call of run or connect in it", "why_tests_cant": "The results depend on arbitrary earlier behaviour of broker, clients and time.", "anchors": ["mqrstt/src/tokio/network.rs: connect, run", "mqrstt/src/smol/network.rs: connect, run", "mqrstt/src/error.rs: ConnectionError", "mqrstt/src/lib.rs: NetworkStatus"]}
{"id": "C61", "title": "Dropping the future of run or connect is like losing the connection", "statement": "A program that drops the future of connect or run and calls run again only after a later connect has succeeded (smol: with no PINGREQ unanswered at the drop) gets a session, queue and visible behaviour that it could also have got from connections that broke. Identifiers stay distinct and a QoS 2 message is handed over once. No message and no request is lost by dropping.", "quantifier": "every configuration, every execution, drops at every await point", "why_tests_cant": "A future can be dropped at every await in combination with every state of session, queue and broker.", "anchors": ["mqrstt/src/tokio/network.rs: connect, run, tokio_select", "mqrstt/src/smol/network.rs: connect, run, smol_select", "mqrstt/src/smol/stream.rs: Stream"]}
{"id": "C62", "title": "Bytes sent are a beginning of the intended packets", "statement": "Whoever reads the bytes that were sent on a connection as MQTT 5 packets finds a beginning of the packets that the client wanted to send, also when the last write was cut anywhere. smol's write buffer is empty between writes.", "quantifier": "every list of packets, every cut position, both runtimes", "why_tests_cant": "Cut positions and packet contents are unbounded.", "anchors": ["mqrstt/src/smol/stream.rs: write, write_all", "mqrstt/src/tokio/stream.rs: write_packet"]}
{"id": "C63", "title": "The network task does what a small automaton allows", "statement": "Everything the network task does (calls of connect and run, packets read and written, handler calls, results, panics) is allowed by an automaton that sees only these observations and knows the unfinished requests and received QoS 2 identifiers computed from them. In particular a DISCONNECT from the broker is handed over and ends run with IncomingDisconnect, a packet that a broker never sends ends run with UnexpectedPacket, and a QoS 1 or 2 PUBLISH without identifier ends it with MissingPacketId.", "quantifier": "every configuration, every execution", "why_tests_cant": "The allowed behaviour depends on the whole history; tests try single exchanges.", "anchors": ["mqrstt/src/tokio/network.rs: connect, run, tokio_select", "mqrstt/src/smol/network.rs: connect, run, smol_select", "mqrstt/src/state_handler.rs: handle_incoming_packet"]}
{"id": "C64", "title": "A PINGREQ is sent only after silence", "statement": "When a PINGREQ is tried, no earlier PINGREQ of this run is unanswered, and since the connection was accepted and since the last packet that run wrote (smol: or read) the keep-alive interval has passed.", "quantifier": "every configuration, every execution, every PINGREQ in it", "why_tests_cant": "The time of the last use depends on the whole execution and on both timers.", "anchors": ["mqrstt/src/tokio/network.rs: tokio_select", "mqrstt/src/smol/network.rs: smol_select"]}
{"id": "C65", "title": "The stream reader takes exactly one frame", "statement": "When the stream reader returns a packet, the count it returns is the number of bytes of the body that it took, and it took exactly as many bytes as the remaining length in the fixed header says.", "quantifier": "every byte stream and every packet read from it", "why_tests_cant": "A reader that ignores the remaining length is only found with frames whose length disagrees with their content.", "anchors": ["mqrstt/src/packets/mod.rs: Packet::async_read", "mqrstt/src/packets/*/mod.rs: PacketAsyncRead"]}
{"id": "C66", "title": "A decoded packet is what the bytes say", "statement": "When a decoder returns a packet, the bytes it took are an MQTT 5 encoding of exactly that packet: the type and flags of the first byte, every field, property, reason code, topic and payload of the packet are those in the bytes, and nothing in the bytes is ignored.", "quantifier": "every byte sequence and every packet either decoder returns for it", "why_tests_cant": "Tests decode what the encoder wrote; a decoder that invents, drops or confuses fields of other bytes goes unnoticed.", "anchors": ["mqrstt/src/packets/mod.rs: Packet::read, Packet::async_read", "mqrstt/src/packets/*/mod.rs: PacketRead, PacketAsyncRead", "mqrstt/src/packets/macros/properties_macros.rs"]}
{"id": "C67", "title": "Together with a conforming broker, a QoS 2 message is passed on exactly once", "statement": "In every joint execution of the client and an MQTT 5 broker over connections that may break at any time, the broker passes a publish on only because a request for exactly this message was made with its identifier, and a QoS 2 publish at most once per request; when the client reads PUBCOMP or an accepting PUBREC, the last QoS 2 publish requested with that identifier has been passed on exactly once; when it reads an accepting PUBACK, the last QoS 1 publish requested with it has been passed on.", "quantifier": "every configuration, every interleaving of client calls, network steps, broker steps, connection losses and reconnections with or without session", "why_tests_cant": "The guarantee spans client, network and broker; it depends on which of the packets on the way are lost at every break of the connection.", "anchors": ["mqrstt/src/state_handler.rs: StateHandler", "mqrstt/src/state.rs: State", "mqrstt/src/tokio/network.rs", "mqrstt/src/smol/network.rs", "mqrstt/src/client.rs: publish"]}
{"id": "C68", "title": "A handler's requests are accepted in order before it returns", "statement": "The handler is called with the packets in the order of the log, each call with the memory left by the previous one; between its call and its return it makes exactly the requests of its program, each only after the previous one was accepted, and all are accepted before it returns; the network task dies in the handler only if the handler panics or one of its requests is refused.", "quantifier": "every handler program with any memory, every configuration, every execution, with any number of other client calls in between", "why_tests_cant": "The handler's request waits among those of other clients, whose places shift while it waits; the property is about every interleaving.", "anchors": ["mqrstt/src/event_handlers.rs: AsyncEventHandler, PingPong", "mqrstt/src/client.rs: publish", "mqrstt/src/tokio/network.rs: tokio_select", "mqrstt/src/smol/network.rs: smol_select"]}
{"id": "C69", "title": "Packets are read from the bytes consecutively", "statement": "At every moment the bytes received on the connection are: the frames of the CONNACK and of the packets read since, in this order, each saying exactly that packet, then the bytes kept for the next packet, then the bytes not yet looked at. No byte is skipped, used twice or attributed to another packet, whatever bytes the broker sends.", "quantifier": "every configuration, every sequence of bytes in any pieces, every interleaving with client calls, timers and reconnections", "why_tests_cant": "Tests feed well-formed packets in convenient pieces; the claim is about arbitrary bytes, split anywhere, with the reading interrupted anywhere.", "anchors": ["mqrstt/src/smol/stream.rs: parse_message, read_bytes, read_required_bytes", "mqrstt/src/tokio/stream.rs: read", "mqrstt/src/tokio/network.rs: tokio_select", "mqrstt/src/smol/network.rs: smol_select", "mqrstt/src/packets/mod.rs"]}
{"id": "C70", "title": "connect and run neither spin nor stop while there is something to do", "statement": "If handlers return and writes end, connect and run come to rest after a bounded number of own steps; at rest they have returned, or everything that arrived has been read and no request is waiting; after the end of the stream they return.", "quantifier": "every configuration, every execution, any bytes received in any pieces", "why_tests_cant": "A test that waits cannot tell slow from stuck, and does not reach every combination of pieces, requests and control points.", "anchors": ["mqrstt/src/tokio/network.rs: connect, run, tokio_select", "mqrstt/src/smol/network.rs: connect, run, smol_select", "mqrstt/src/smol/stream.rs: read_bytes, read_required_bytes"]}
{"id": "C71", "title": "A broker that acknowledges only what it has received cannot make the client panic or run fail", "statement": "With a broker that answers only packets it has received (in any order, with any reason codes, or not at all) every acknowledgement that run reads is awaited; the client never panics unless more may be sent than its table holds; and run ends with a packet handling error only after all client handles were dropped.", "quantifier": "every configuration, every execution of client and broker together, any loss of connections", "why_tests_cant": "The error paths for unexpected acknowledgements depend on the exact order of retransmission, acknowledgement and loss; tests reach a handful of these orders.", "anchors": ["mqrstt/src/state_handler.rs: handle_incoming_*", "mqrstt/src/state.rs: remove_outgoing_pub", "mqrstt/src/tokio/network.rs: connect, run", "mqrstt/src/smol/network.rs: connect, run"]}
{"id": "C72", "title": "With a broker that answers, the work ends and every exchange is answered", "statement": "Left alone on a connection, client and broker can only take a bounded number of steps in whatever order they take them; when nothing is left to do and the connection still works and no write failed, no call waits, no request is queued, nothing is in flight, and each exchange that was in flight has been ended by a packet of the broker that ends it. If the client gave up the connection meanwhile, then because run ended regularly, a write failed, or all client handles were dropped.", "quantifier": "every configuration, every execution of client and broker together, every order of the remaining steps", "why_tests_cant": "Liveness: that no schedule leaves an exchange behind or runs forever cannot be observed in finitely many runs.", "anchors": ["mqrstt/src/tokio/network.rs: connect, run", "mqrstt/src/smol/network.rs: connect, run", "mqrstt/src/state_handler.rs", "mqrstt/src/client.rs"]}
{"id": "C73", "title": "Messages of QoS 1 and 2 from a broker, across lost connections", "statement": "With a broker that numbers its messages, sends again (with DUP) on the next connection what is not acknowledged and keeps or forgets its session, the handler is only called with the message last sent under that identifier (or its repetition), with a message of QoS 2 at most once; a message of QoS 1 is acknowledged only after the handler was called with it; a message of QoS 2 is completed only after the handler was called with it, provided its first transmission was read or the client has not connected again. (Without that proviso the message can be lost: refuted.)", "quantifier": "every configuration, every execution of client and broker together, every point at which connections break, any packets ignored or forgotten by the broker", "why_tests_cant": "Loss or duplication needs a particular interleaving of cut, retransmission and identifier reuse; the tests of the project use a fixed list of packets and one connection.", "anchors": ["mqrstt/src/state_handler.rs: handle_incoming_publish, handle_incoming_pubrel, handle_incoming_connack", "mqrstt/src/state.rs: add_incoming_pub, remove_incoming_pub, reset", "mqrstt/src/tokio/network.rs: connect, run", "mqrstt/src/smol/network.rs: connect, run"]}
{"id": "C74", "title": "The decoders accept exactly these bytes", "statement": "Packet::read returns packet p and the bytes after its frame if and only if the buffer starts with a frame whose type and flags are those of p, whose length is its remaining length, and whose body is an encoding of the well-formed packet p with the liberties listed in SpecLenient, possibly followed by bytes that are ignored, subject to the restrictions of each type listed in SpecAccept (no payload format indicator in a will, an authentication method for authentication data, SUBACK and UNSUBACK only in their shortest form, and so on). Packet::async_read takes a frame exactly if and only if its body is such an encoding of p (a SUBSCRIBE with one topic). For arbitrary bytes, whatever remaining length they announce, it returns p if and only if they start with such an encoding and the announced length has the relation to its length listed for each type in SpecAccept (none for CONNECT, CONNACK, PINGREQ, PINGRESP and AUTH; equality for PUBLISH, PUBCOMP and SUBACK). SUBACK and UNSUBACK with a length that is not in its shortest form are taken by the stream reader and refused by the buffer reader.", "quantifier": "all byte sequences, all packets, all bytes following", "why_tests_cant": "An equivalence over all byte strings and all packets: tests can neither show that nothing else is accepted nor that nothing of this is refused.", "anchors": ["mqrstt/src/packets/mod.rs: Packet::read, Packet::async_read, Packet::read_from_buffer", "mqrstt/src/packets/macros/properties_macros.rs", "mqrstt/src/packets/suback/mod.rs: PacketRead::read", "mqrstt/src/packets/unsuback/mod.rs: PacketRead::read", "mqrstt/src/packets/connect/connect_properties.rs", "mqrstt/src/packets/connect/last_will_properties.rs"]}
{"id": "C75", "title": "What subscribe and unsubscribe say for the topics they are given", "statement": "Whatever form the argument of subscribe takes (a topic; a topic with a QoS; a topic with options; several of these), the request that reaches the network is, byte for byte, the SUBSCRIBE of MQTT 5 with the next free identifier and, in the order given, each topic with exactly the options given for it; what is not given is QoS 0, no local off, retain as published off, retain handling 0. The same for unsubscribe and UNSUBSCRIBE.", "quantifier": "every form of argument, any number of topics, every valid UTF-8 topic, every pool of identifiers, every maximum packet size, both runtimes", "why_tests_cant": "The conversions are a dozen trait implementations that are combined freely; the project has no test of them, and the property is about all topics, all options and all numbers of topics.", "anchors": ["mqrstt/src/packets/subscribe/mod.rs: IntoSingleSubscription, SubscribeTopics, SubscriptionOptions::default", "mqrstt/src/packets/unsubscribe/mod.rs: IntoUnsubscribeTopic, UnsubscribeTopics", "mqrstt/src/client.rs: subscribe, unsubscribe"]}
{"id": "C76", "title": "Client calls when the network is dropped", "statement": "When the Network value has been dropped nothing is read, written or handed over any more, no client call waits for ever (whether it waits for an identifier, waits to send its request, or is made later), every call returns exactly once, and with an error: NoNetworkChannel, or a validation error only if its packet does not validate. (A call that sends its request while the network is being dropped returns Ok although the request is never written: refuted.)", "quantifier": "every configuration with send maximum at least 1, every execution, every moment at which the network is dropped, every order in which the calls go on, both runtimes", "why_tests_cant": "It depends on which of several calls and drops comes first; the tests of the project never drop the network under a waiting call.", "anchors": ["mqrstt/src/client.rs: all calls", "mqrstt/src/available_packet_ids.rs", "mqrstt/src/error.rs: ClientError", "mqrstt/src/tokio/network.rs: struct Network", "mqrstt/src/smol/network.rs: struct Network"]}
{"id": "C77", "title": "Exactly-once over bytes, with a conforming broker", "statement": "In every joint execution of the client, reading and writing bytes, and an MQTT 5 broker that decodes what arrives and encodes what it sends as MQTT 5 says, over connections that deliver the bytes in pieces of any size and may break at any byte: the broker passes a publish on only because a request for exactly this message was made with its identifier, and a QoS 2 publish at most once per request; when the client reads PUBCOMP or an accepting PUBREC, the last QoS 2 publish requested with that identifier has been passed on exactly once; when it reads an accepting PUBACK, the last QoS 1 publish requested with it has been passed on.", "quantifier": "every configuration made with the option setters, every interleaving of calls with well-typed arguments, network steps, decoding and encoding steps, arrivals of bytes, broker steps and connection losses, both runtimes", "why_tests_cant": "It needs the writers, the framing, the readers, the state machine and the retransmission to agree, for every way to cut the bytes of every packet; the tests check the parts one at a time on fixed bytes.", "anchors": ["mqrstt/src/packets/mod.rs: Packet::write, async_write, read, async_read", "mqrstt/src/smol/stream.rs", "mqrstt/src/tokio/stream.rs", "mqrstt/src/state_handler.rs: StateHandler", "mqrstt/src/tokio/network.rs", "mqrstt/src/smol/network.rs"]}
{"id": "C78", "title": "Messages from a conforming broker, over bytes", "statement": "In every joint execution of the client, reading and writing bytes, and an MQTT 5 broker that sends messages of QoS 1 and 2, over connections that deliver the bytes in pieces of any size and may break at any byte: what the application is handed is the message that the broker last sent with that identifier, and a QoS 2 message is handed over at most once; a QoS 1 message that the broker considers delivered was handed over; so was a QoS 2 message, if the client read it when it was first sent or the connection did not break.", "quantifier": "every configuration made with the option setters, every interleaving of calls with well-typed arguments, network steps, decoding and encoding steps, arrivals of bytes, broker steps and connection losses, both runtimes", "why_tests_cant": "It needs framing, decoding, duplicate suppression, acknowledgements and retransmission to agree for every way to cut the bytes and every point at which the connection breaks; no test connects the client to a broker over a byte stream that breaks.", "anchors": ["mqrstt/src/packets/mod.rs: Packet::write, async_write, read, async_read", "mqrstt/src/smol/stream.rs", "mqrstt/src/tokio/stream.rs", "mqrstt/src/state_handler.rs: StateHandler", "mqrstt/src/tokio/network.rs", "mqrstt/src/smol/network.rs"]}
{"id": "C79", "title": "A polite broker on a byte stream does no harm", "statement": "In every joint execution of the client, reading and writing bytes, and a broker that acknowledges only what it has received and encodes what it sends as MQTT 5 says: every acknowledgement read is one the client waits for; the handler panics only for a publish whose identifier has no place in the table, and with send maximum at most receive maximum the tokio client does not panic, neither in the handler nor in the decoder; run does not end with an error of the packet handling unless all clients were dropped; neither run nor connect ends with a deserialisation error.", "quantifier": "every configuration made with the option setters, every interleaving of calls with well-typed arguments, network steps, decoding and encoding steps, arrivals of bytes, broker steps and connection losses, both runtimes", "why_tests_cant": "The absence of panics and errors has to hold for every way to cut the bytes of every packet and in every state of the client.", "anchors": ["mqrstt/src/packets/mod.rs: Packet::write, async_write, read, async_read", "mqrstt/src/smol/stream.rs", "mqrstt/src/tokio/stream.rs", "mqrstt/src/state_handler.rs: StateHandler", "mqrstt/src/tokio/network.rs", "mqrstt/src/smol/network.rs"]}
{"id": "C80", "title": "With a broker that answers on a byte stream, the work ends and every exchange is answered", "statement": "A client that reads and writes bytes, the network that carries them in any pieces, and a broker that answers can, left alone on a connection, only take a bounded number of steps in whatever order they take them; when nothing is left to do and the connection still works and no write failed, no call waits, no request is queued, nothing is in flight, and each exchange that was in flight has been ended by a packet of the broker that ends it. If the client gave up the connection meanwhile, then because run ended regularly, a write failed, all client handles were dropped, or the connection had ended.", "quantifier": "every configuration, every execution of client, network and broker together, every way to cut the bytes, every order of the remaining steps, both runtimes", "why_tests_cant": "Liveness under every way to cut the bytes and every schedule: finitely many runs show neither that an exchange can be left behind nor that none is.", "anchors": ["mqrstt/src/tokio/stream.rs", "mqrstt/src/smol/stream.rs", "mqrstt/src/packets/mod.rs: Packet::read, async_read", "mqrstt/src/tokio/network.rs: connect, run", "mqrstt/src/smol/network.rs: connect, run", "mqrstt/src/state_handler.rs", "mqrstt/src/client.rs"]}
{"id": "C81", "title": "What goes out is what the application asked for", "statement": "The calls that started correspond one to one and in order to packets that carry exactly what the call asked for (topic, payload, QoS, retain flag, properties, filters, reason; duplicate flag off, an identifier exactly for QoS 1 and 2). Each of them is either accepted, refused, dropped by the application or still waiting, never two of these and never none. The client writes no request that no call asked for, and what it sends again is a PUBREL or a publish that it wrote before and that some call asked for, unchanged but for the duplicate flag.", "quantifier": "every configuration, every execution, every interleaving of calls, connections and losses, both runtimes", "why_tests_cant": "A request could be altered, lost between call and channel, or invented only in some interleaving of waiting, dropped and refused calls with reconnections.", "anchors": ["mqrstt/src/client.rs: publish, subscribe, unsubscribe, disconnect", "mqrstt/src/tokio/network.rs", "mqrstt/src/smol/network.rs", "mqrstt/src/state_handler.rs: get_retransmit, handle_incoming_connack"]}
{"id": "C82", "title": "Topics and filters on the wire are those that MQTT 5 allows", "statement": "Every PUBLISH, SUBSCRIBE and UNSUBSCRIBE that the client writes keeps the rules of MQTT 5 for what a client may ask: topic names without wildcards and U+0000 and not empty without an alias, alias not 0, response topic a topic name, no subscription identifier in PUBLISH, wildcards only as whole levels and # only as the last, No Local not on shared subscriptions, at least one filter.", "quantifier": "every configuration, every execution, both runtimes", "why_tests_cant": "The rules are about every string an application may pass and every packet sent again later.", "anchors": ["mqrstt/src/client.rs: publish, subscribe, unsubscribe", "mqrstt/src/packets/publish/mod.rs: validate", "mqrstt/src/packets/subscribe/mod.rs: validate", "mqrstt/src/packets/unsubscribe/mod.rs: validate"]}
{"id": "C83", "title": "Most of what the broker says has no influence on the client", "statement": "Of the packets it reads the client looks only at: the kind; of a PUBLISH the QoS, for QoS 1 and 2 the identifier and for QoS 2 the duplicate flag; of acknowledgements the identifier and of PUBREC whether it accepts; of CONNACK the reason code and, with success, session present and server keep alive. Two executions that agree in this go through the same states and write the same packets at the same times, whatever else the packets say (receive maximum, maximum packet size, maximum QoS, topic alias maximum, assigned client identifier, the codes of SUBACK, topics, payloads, reasons).", "quantifier": "every configuration, every pair of executions with the same events up to the unseen parts of the packets read, both runtimes", "why_tests_cant": "A statement about pairs of executions: no single run can show that something has no influence.", "anchors": ["mqrstt/src/state_handler.rs: handle_incoming_packet, handle_incoming_connack", "mqrstt/src/tokio/network.rs: connect, tokio_select", "mqrstt/src/smol/network.rs: connect, smol_select"]}
{"id": "C84", "title": "Dropping run or connect does not put the reader out of step", "statement": "When the futures of run and connect may be dropped at any await and called again, the packets read on a connection are still the first packets the broker sent on it, in order, each once, whatever the chunks of bytes; the messages given to the handler are those among them; what has arrived completely is read. smol: a run dropped while it waits and called again goes on from the same bytes, session and queue. tokio: the reader never panics.", "quantifier": "every configuration, every execution over bytes with futures dropped at any await, every chunking, both runtimes", "why_tests_cant": "Where a future is dropped, how the bytes are cut and what was read so far multiply.", "anchors": ["mqrstt/src/tokio/network.rs: run, connect, tokio_select", "mqrstt/src/smol/network.rs: run, connect, smol_select", "mqrstt/src/smol/stream.rs: read_bytes, parse_message", "mqrstt/src/tokio/stream.rs: read_packet"]}
{"id": "C85", "title": "Topics and payloads are opaque to the client", "statement": "If all topics, topic filters and payloads, in calls and in packets read, are renamed by functions that keep lengths, then exactly the same events are possible, and states, packets written, handler calls, results and times are the same up to the renaming. Nothing the client does depends on the content of a topic or payload.", "quantifier": "every pair of length-preserving renamings, every configuration, every sequence of events, both runtimes", "why_tests_cant": "A statement about all pairs of executions that differ only in content.", "anchors": ["mqrstt/src/client.rs: publish, subscribe, unsubscribe", "mqrstt/src/state.rs", "mqrstt/src/state_handler.rs", "mqrstt/src/tokio/network.rs: tokio_select", "mqrstt/src/smol/network.rs: smol_select", "mqrstt/src/packets/publish/mod.rs: validate", "mqrstt/src/packets/subscribe/mod.rs: validate"]}
{"id": "C86", "title": "The order in which handles and network are scheduled does not matter when both can go", "statement": "In every reachable state in which a call of a client handle can make a step (take its identifier, put its request in the channel, or be given up) and the network can make a step (of connect or run), both orders are possible and lead to the same session, channel, network state and time; the handles have seen the same and the network has seen the same. A step of a call can be moved past any number of network steps in an execution, later or earlier, and the rest of the execution stays possible with the same result. (Dropping the last handle is different: it can turn an acknowledgement into an error.)", "quantifier": "every configuration with a positive send maximum, every reachable state, every pair of such steps, every execution, both runtimes", "why_tests_cant": "A statement about all schedules: a test runs one.", "anchors": ["mqrstt/src/client.rs: publish, subscribe, unsubscribe, disconnect", "mqrstt/src/available_packet_ids.rs: mark_available", "mqrstt/src/state_handler.rs", "mqrstt/src/tokio/network.rs: tokio_select", "mqrstt/src/smol/network.rs: smol_select"]}
{"id": "C87", "title": "The tokio client and the smol client do the same, timers aside", "statement": "For the same options, every result that an execution of the tokio client can have is the result of an execution of the smol client, and the other way round: the session, the calls that wait, the requests in the channel, whether there is a connection, the time, and all that was written, read, handed over and returned, with the times. Compared are executions in which the keep-alive timers do not fire and no write of a retransmission fails; the keep-alive interval inside CONNECT is left out. Options with authentication data need a method as well: without it tokio connects and leaves the data out, smol fails to connect. A retransmission that cannot be written makes smol's connect fail and not tokio's.", "quantifier": "all options with authentication data only beside a method, every execution of either client without timer events and failing retransmissions, every result", "why_tests_cant": "The test suites of the two runtimes are separate and compare neither with the other; equality of all behaviours is a relation between two programs.", "anchors": ["mqrstt/src/tokio/network.rs: connect, run, tokio_select", "mqrstt/src/smol/network.rs: connect, run, smol_select", "mqrstt/src/tokio/stream.rs", "mqrstt/src/smol/stream.rs"]}
{"id": "C88", "title": "The broker's packet identifiers are only names", "statement": "If the identifiers that the broker gives to its messages are replaced by others, different ones by different ones, in everything the broker sends, then the same events are possible in the same order, PUBACK, PUBREC and PUBCOMP carry the new identifiers, the set of messages received in part has the new identifiers, and nothing else changes: what the handler is given, the requests of the application and their identifiers, errors, retransmissions and times.", "quantifier": "every one-to-one function on identifiers, every configuration with a positive send maximum, every sequence of events (possible or not), both runtimes", "why_tests_cant": "A relation between two executions, for all renamings and all executions.", "anchors": ["mqrstt/src/state.rs: add_incoming_pub, remove_incoming_pub", "mqrstt/src/state_handler.rs: handle_incoming_publish, handle_incoming_pubrel", "mqrstt/src/tokio/network.rs", "mqrstt/src/smol/network.rs"]}
{"id": "C89", "title": "The session holds exactly the unfinished exchanges", "statement": "At every moment before a panic the session state equals the state that can be written down from the log alone: the subscriptions and unsubscriptions that await an answer, each unacknowledged publish in the slot of its identifier and in the order in which they were written, the exchanges that await PUBCOMP, and the received QoS 2 messages that are not released. Nothing else is left in it. When no exchange is unfinished the session is a new one, and the free identifiers are all identifiers that are not lost, each once.", "quantifier": "every configuration with a positive send maximum, every reachable state before a panic, any number of connections, both runtimes", "why_tests_cant": "An equality of states for all executions; leftovers of one exchange show up only in much later ones.", "anchors": ["mqrstt/src/state.rs", "mqrstt/src/state_handler.rs", "mqrstt/src/available_packet_ids.rs"]}
{"id": "C90", "title": "Time without a connection does not matter", "statement": "While there is no connection (before the first one, after the end of one, during a connect that has no answer yet), any time may pass: exactly the same sequences of events are possible afterwards as without the wait, the session, the waiting calls and the channel are the same, and the observations are the same ones, later by the length of the wait. No deadline is left over from an earlier connection or from the construction. (Between a successful connect and run time does count.)", "quantifier": "every configuration with a positive send maximum, every reachable state without a connection, every length of the wait, every further sequence of events, both runtimes", "why_tests_cant": "A relation between two executions, for all waits and all continuations; tests wait for short times only.", "anchors": ["mqrstt/src/tokio/network.rs: new, connect, run, tokio_select", "mqrstt/src/smol/network.rs: new, connect, run, smol_select"]}
{"id": "C91", "title": "What the client holds is bounded", "statement": "Whatever the user calls and whatever the broker sends, the session holds at most send_maximum requests in flight, the message table keeps its size and holds no message that is not in the order of messages, the received-message set has at most one entry per 16-bit identifier, at most one packet waits in the network task to be written, and the reader has taken no more bytes from the connection than those of one unfinished packet, which has the announced length at most.", "quantifier": "every configuration with a positive send maximum, every reachable state, any number of connections, every sequence of bytes and chunks, both runtimes", "why_tests_cant": "A bound over all executions; a leak shows only after very long ones.", "anchors": ["mqrstt/src/state.rs", "mqrstt/src/available_packet_ids.rs", "mqrstt/src/tokio/network.rs: tokio_select", "mqrstt/src/smol/network.rs: smol_select", "mqrstt/src/smol/stream.rs: parse_message, read_bytes", "mqrstt/src/tokio/stream.rs: read"]}
{"id": "C92", "title": "The limits that CONNECT announces are enforced", "statement": "A message of the broker that exceeds a limit that the client announced in CONNECT (receive maximum, maximum packet size, topic alias maximum) is not given to the handler.", "quantifier": "every configuration, every reachable state, every PUBLISH, both runtimes", "why_tests_cant": "It is about every limit and every message; tests use brokers that respect the limits.", "anchors": ["mqrstt/src/connect_options.rs: create_connect_from_options", "mqrstt/src/state_handler.rs: handle_incoming_packet, handle_incoming_publish", "mqrstt/src/tokio/stream.rs: read", "mqrstt/src/smol/stream.rs: parse_message"]}
{"id": "C93", "title": "Dropping run frees a client that its handler blocks", "statement": "When the future of connect or run is dropped while the handler works on a packet, the handler makes no further request and does not return; the other packets are served as before. Dropping run and calling it again makes the client take requests again, whatever the handler was waiting for, and what the handler had not finished costs nothing.", "quantifier": "every handler, every configuration, every execution in which futures are dropped at any await, both runtimes", "why_tests_cant": "It is about every handler and every await at which it can be dropped; tests do not drop a run whose handler waits.", "anchors": ["mqrstt/src/tokio/network.rs: connect, run", "mqrstt/src/smol/network.rs: connect, run", "mqrstt/src/client.rs: publish_with_properties", "mqrstt/src/event_handlers.rs: PingPong"]}
{"id": "C94", "title": "A client can always be connected again", "statement": "From every state in which the network task has not panicked, connect and run can come to an end, a broker that accepts can be connected to, and run waits for what comes next; no call has to be made or given up for this, and no request in the channel is lost. A client can be connected at all exactly if its CONNECT has an encoding.", "quantifier": "every configuration whose CONNECT has an encoding, every reachable state without a panic, every accepting CONNACK, both runtimes", "why_tests_cant": "It is about every state that any history can lead to, including those in which all handles are dropped or a write is pending.", "anchors": ["mqrstt/src/tokio/network.rs: connect, run", "mqrstt/src/smol/network.rs: connect, run", "mqrstt/src/state_handler.rs: handle_incoming_connack", "mqrstt/src/state.rs: reset"]}
