# A Rocq model of mqrstt

This directory holds a machine-checked model of the MQTT v5 client library
mqrstt (source in /repo, read as text only) and theorems about it.
The prover is Coq 8.16.1.

## Layout

All Coq files are in `rocq/theories`.

| File | Content |
|---|---|
| `Base` | bytes, results, errors, writers |
| `VarInt`, `Prims` | variable byte integers, integers, strings, UTF-8, QoS, fixed header |
| `Props` | property sections: one reader and writer of each kind, one configuration per packet type |
| `Codes` | reason-code tables |
| `Packets` | the 15 packet types, buffer codec and stream codec, the client's validation |
| `Options` | connect options |
| `Session` | identifier pool, `State`, `StateHandler` |
| `Client` | the client handle |
| `System` | clients, channel, session and network loop (tokio and smol) as one transition system with time |
| `SmolStream`, `TokioRead` | from bytes to packets in the two runtimes |
| `Wire` | `System` with the connection as a stream of bytes |
| `Handlers` | `System` with a handler that uses the client; the example handlers |
| `HandlerDrop` | `Handlers` when the future of connect or run can be dropped |
| `Cancel` | `System` with futures of `run` and `connect` that are dropped; the bytes of cut writes |
| `WireDrop` | `Wire` with futures of `run` and `connect` that are dropped |
| `SpecCodec`, `SpecCodes` | MQTT 5 encodings and numbers |
| `SpecSession` | the ledger: requests and identifiers according to what was observed |
| `SpecNet` | what the network task may do: an automaton over observations |
| `SpecPolite` | any broker that acknowledges only what it has received, joined with `System` |
| `SpecSettle` | the same broker without the right to remain silent; the work left when nothing disturbs the connection |
| `SpecBytes` | client and broker connected by a network that carries bytes (C77) |
| `SpecLong` | the strings and binary fields of a packet; packets without length limits (C16) |
| `SpecCarry` | the same for the brokers of `SpecSource` (C78) and `SpecPolite` (C79) |
| `SpecAsk` | which packet a call asks for, and what becomes of it (C81) |
| `SpecAllow` | the rules of MQTT 5 for topic names, filters and aliases (C82) |
| `SpecBlind` | what the client looks at in the packets it reads (C83) |
| `SpecOpaque` | topics and payloads renamed everywhere (C85) |
| `SpecSwap` | steps of the handles and of the network; states that differ only in the order of the log (C86) |
| `SpecAgree` | when the two runtimes have done the same: the result of an execution without timers and failing retransmissions (C87) |
| `SpecLabel` | the broker's packet identifiers renamed in events, observations and state (C88) |
| `SpecHold` | the session state written down from the log: the unfinished exchanges (C89) |
| `SpecPause` | states without a connection, the same observations later (C90) |
| `SpecBound` | how much the client holds: requests, messages, packets, bytes (C91, C92) |
| `SpecAttend` | what is seen of a handler that can be cut off (C93) |
| `SpecRecover` | the events that lead back to a connection (C94) |
| `SpecCrash` | which bytes panic the smol client (C43, C54) |
| `SpecLabour` | the same for the broker of `SpecSettle`; the work left over bytes (C80) |
| `SpecSource` | a broker that sends messages of QoS 1 and 2 and sends again what is not acknowledged (C73) |
| `SpecWorld` | a broker that keeps MQTT 5 and connections that break, joined with `System` |
| `SpecTrace`, `SpecTime`, `SpecRead`, `SpecWire`, `SpecOptions`, `SpecOut`, `SpecEnd`, `SpecCancel`, `SpecHandler`, `SpecDecode`, `SpecLenient`, `SpecAccept`, `SpecProgress` | words for statements about the log, about time, about byte streams, about connections, about setter calls, about what is sent, about results, about dropped futures, about handlers, about frames, about progress |
| `P_*` | property theorems only: statement, `exact lemma`, `Print Assumptions`, `Example` that meets the hypotheses |
| all others | lemmas (`*Facts`, `*More`) and concrete executions (`*Cases`, `Scenario`, `Witness`) |

Models contain no proofs. Specifications share the data types with the models; of their functions they use only what names an input
(`step` in `SpecTime`, the setters in `SpecOptions`) or an error value (`ser_err` in `SpecEnd`).

## Modelling conventions

* A byte is an `N`; "is a byte" (`< 256`) is a predicate used as a hypothesis. Strings are byte lists with an executable
  UTF-8 check. Lengths are `N`.
* `Result` is data (`Ok`/`Err`), a panic is the explicit value `Panic`. A theorem that says "no panic" excludes that value.
* Loops of the code are structural recursions on explicit fuel computed from the input length; running out of fuel is a separate error
  value that is proved not to occur.
* The stream (async) readers are functions of the bytes available so far. `AShort` is "still waiting": the future is
  pending. Cancelling a pending future loses the bytes it has consumed, as in tokio.
* Packet property structs are one record with all the optional fields; each packet type lists the fields it has, and
  well-formedness says that the other fields are empty. This mirrors the macro `define_properties!`.
* Error payloads that are type names or message texts are dropped.

## Plan per property

C01/C02: model the loops bit for bit; prove by case analysis on the four byte positions.

C03, C04, C05, C06, C12: primitives round-trip with arbitrary trailing data; the generic property section is proved once for
all configurations; then one lemma per packet type. Where the code violates the statement (listed below) the theorem
excludes precisely those packets, is named `_partial`, and a `_refuted` theorem with a witness stands beside it.

C07: structural: every reader is shown not to return `Panic`; refuted for CONNECT by witness; `C07_exact` says which bytes panic.

C08, C09, C10: from the framing layer (`Packet::read`) plus C03; induction over the chunk list.

C11: each reader preserves "all bytes are bytes" and returns well-formed data.

C13: a specification scans a property section into a list of (identifier, value); the reader accepts only if no identifier repeats.

C14, C15: finite domains, decided exhaustively by computation and lifted with `forallb_forall`.

C16, C17, C18: arithmetic on `wire_len` and the client checks; refutations by witness. C16 also for every packet (`LongFacts`): with no assumption on lengths the writers succeed and write bytes; what a reader gives from bytes is `packet_ok` (C11), so has no long field.

C19–C25, C29, C30: an invariant over the transition system of `System.v` (client calls, network steps, broker packets,
write failures, reconnects in any order); retransmission is proved against a ghost log of what was sent.

C26–C28: state handler plus the event trace of the loops.

C31–C36: trace properties of the loops by induction on executions.

C37–C40: timed transition systems; time is a natural number, timers fire when due.

C41–C43: the smol buffer and the tokio select are modelled at the byte level. `SpecAnswer.v` computes from sizes alone what is read; the `_exact` theorems say that it is.

C44, C45: options record.

C52–C54: `Wire` refines `System`; an invariant relates the bytes of a connection to the packets taken from it.

C55, C56: a second refinement of `System`, in which the handler is a program.

C68: an invariant relates what is left of the handler's program to the log since it was called.

C57–C59: invariants over `System` about everything that is held for sending; connections are reconstructed from the log.

C60: an invariant that relates the control point to the last observations; C57 and C60 also for executions that start from bytes.

C61, C62: a simulation: a drop at each await point is matched by a failing connection. Bytes: unique reading of encodings (C58).

C63, C64: every execution is a run of the automaton of `SpecNet.v`; an invariant relates `last_use` (`SpecPing.v`) to the timer.

C69: the stream of each connection is the frames read so far and what is kept; each read extends it (`DecodeFacts.tracked`).
C70: a measure of bytes, requests and control points that every own step decreases (`ProgressFacts.measure`).
C71: an invariant over client and connection: the identifiers of what is under way, in either direction or to be written next, are distinct, and each belongs to a request in the ledger (`PoliteFacts.hold`).
C72: the converse, each exchange in the ledger has a packet under way (`SettleFacts.full`), and a measure of both sides' work that every step decreases (`SettleMore.remaining`).
C73: for every identifier there is at most one token on its way round (publish or PUBREL down, reply to be written, reply up, or retransmission due), and where it is determines what has been handed over (`SourceFacts.vow`).
C77: for every execution over bytes there is one over packets with the same log; what links them is how the bytes on the way divide into packets (`BytesWorld.along`). C78 and C79: the same, once for any broker (`CarryFacts.carried_packets`).
C80: by the same link, C72 plus a measure of the bytes on the way within each step over packets (`LabourFacts.labour_less`); who can still do something is seen from the bytes themselves (`LabourMore.done_rest`).
C81: over `Cases.tcase` (what one step does); retransmissions by the ledger (`AskFacts.sent_written`). C82 follows.
C83: `step` commutes with forgetting what is not looked at (`BlindFacts.step_vis`), the log being only written (`step_onto`).
C84: the invariants of C53 need of `reachable` only that smol's outgoing buffer is empty at every await, which a drop keeps (`WireDropFacts.drop_linked`).
C85: `step` commutes with the renaming (`OpaqueFacts.step_ren`), function by function.
C86: a step of a handle takes at most the head of the pool and appends to the channel; every network step commutes with that (`SwapFacts.step_cl`), since the session only appends to the pool and cannot find it full.
C87: a relation between states of the two clients (`AgreeFacts.rel`) that every step keeps (`both`); smol has an extra step after a packet without an answer, it writes an empty buffer (`empty_flush`). Kept beside it: every stored publish has been serialised once, so that retransmissions cannot fail to serialise.
C88: every function commutes with the renaming (`LabelFacts.com`, `step_lab`), given that the set of incoming identifiers is sorted (`NetFacts.conforms`).
C89: the relation between state and ledger (`SessionFacts.R`) determines each field; sorted lists with the same members are equal.
C90: a simulation (`PauseFacts.psim`): clocks and deadlines are shifted once the answer of the broker has been read, before that they are free.
C91: from C89 (the session is a function of the ledger) and the bound on identifiers; tokio's reader by induction over the byte-level executions.
C92: one step from any state; the witnesses by computation.
C93: the invariant of C68 for any description of the log that knows handlers which return, used a second time for one that also knows handlers
which are cut off; every drop is one or two steps of `Cancel`.
C94: from each await point a failed write, a failed read or the return of the handler leads to the end of connect or run (`RecoverFacts.stops`); CONNACK never panics (C23), and an attempt that fails to give back identifiers leaves none to give back (`second_time`). C94_exact adds that nothing else stands in the way: a panic is for good (`RecoverCases.crash_for_good`), and connect never returns Ok without an encoding of CONNECT (`connectable`).
C67: an invariant over client, connection and broker: per identifier, where the message and its acknowledgements are (`WorldFacts.view`).

## What is modelled

Function by function, with the source lines in a comment at each definition:

* `packets/`: both readers and both writers of every packet type, property sections, reason codes, `wire_len`,
  `PacketValidation`. The four reader/writer families are modelled separately where the code differs; differences between
  packet types that come from copied code are recorded as fields of a configuration (`Props.pcfg`).
* `available_packet_ids.rs`, `state.rs`, `state_handler.rs`: all functions.
* `client.rs`: all calls. The blocking and the asynchronous forms do the same steps and share one model.
* `connect_options.rs`: `new`, all setters and getters, `create_connect_from_options`.
* `tokio/network.rs`, `smol/network.rs`, and the `connect`, `write_packet`, `write_packets` functions of the two `stream.rs`: as events of
  `System.step`. An event is the code between two await points.
* `tokio/stream.rs` and `smol/stream.rs`: reading, on bytes and chunks (`TokioRead`, `SmolStream`). `System` takes packets as
  events; which packets the bytes yield is the subject of C41 to C43. `Wire` puts the two together: bytes arrive in chunks, and the reads
  of `connect` and `run` are those of `TokioRead` and `SmolStream`. C52 relates `Wire` and `System`.
* `event_handlers.rs`: the asynchronous handlers. A handler is a function from its memory and the packet to a list of calls that it awaits and
  its end.
* `subscribe/mod.rs`, `unsubscribe/mod.rs`: the conversions of the arguments of `subscribe` and `unsubscribe` (`Topics`, C75).
* Dropping the `Network` value (`Shutdown`, C76), on top of `System`; calls there wait for an identifier as a separate step. In `System` and the layers above it the `Network` lives for ever.

Simplifications are stated at the definitions. The main ones: payloads of error values that are texts or type names are
dropped; mutexes are left out; the futures returned by `run` and `connect` are dropped only in
`Cancel`, `WireDrop` and `HandlerDrop`, not in the other layers; the channel crate is a bounded
FIFO with a closed flag; `read_exact`, `String::from_utf8`, `BTreeSet`, `Vec` are modelled by their documentation; two reads of the
clock without an await in between give the same instant; integer overflow is modelled where it can happen, except in
`Instant + Duration`, which is exact here.

Not modelled: executors, sockets, TLS, logging, `Display` implementations, the crate's tests, the directory `sync/`
(not compiled), memory limits.

## Trusted base

* Coq's kernel (8.16.1).
* The axioms that `Print Assumptions` prints below each theorem. It prints "Closed under the global context" for all of them.
* The reading of the Rust code recorded in the comments of the model files, and the simplifications above.
* For the meaning of the theorems: the specification files, which are written from the MQTT 5 text and the property
  statements.

## Where the code violates a property

Each line is a `_refuted` theorem with a witness; the theorem beside it (`_partial`) excludes exactly this.

* C03, C04: a will with payload format indicator cannot be read by the buffer reader; PUBREC and PUBCOMP with an error code and no
  properties are written in a form the crate does not read; empty authentication data disappears; the stream
  writer drops the assigned client identifier; the stream reader stops after the first topic of SUBSCRIBE.
* C05: the short acknowledgements. C06: empty authentication data, assigned client identifier, number of bytes reported for a server
  reference.
* C07: a CONNECT whose keep-alive is cut off panics (buffer reader); so does one whose property section ends inside an integer property.
* C08: a packet with empty authentication data announces a length that differs from the bytes written.
* C10: the short acknowledgements above cannot be read whatever the chunks.
* C12, C49, C50: consequences of the above.
* The `_exact` theorems (`ExactFacts.v`, `ExactMore.v`): each excluded packet fails. `cleared` takes empty authentication data out; the writers that skip it write `cleared p`.
* C65 (`CountFacts.v`): every stream reader returns the number of bytes it took; only three compare it with the announced length.
* C66 (`SpecLenient.v`, `LenientFacts.v`, `LenientMore.v`): every reader is inverted: from its result back to the bytes it took. `SpecLenient` restates the encodings of `SpecCodec` with the liberties of the crate marked; `LenientCases.v` shows that they are taken.
* C74 (`SpecAccept.v`, `AcceptFacts.v`, `AcceptMore.v`, `AcceptAll.v`, `StreamTake.v`): C66 and its converse, for the stream reader with any announced length (`stream_takes`). The restrictions of each reader are in `SpecAccept`: a buffer reader counts the codes of SUBACK and UNSUBACK from the shortest form of the properties, so longer forms are refused.
* C13, C46: repeated subscription identifier in SUBSCRIBE and SUBACK (stream reader); SUBACK accepts a property that MQTT does not allow
  and refuses one it does.
* C16, C17, C18: sizes computed without the fixed header; the length of a string of more than 65535 bytes is written modulo 65536; no topics.
* C21, C22: identifiers are lost when a call is refused or dropped, when a write fails, when PUBREC carries an error, and when a session with
  outstanding PUBREL is not resumed.
* C23, C30: acknowledgements with identifier 0 or above the receive maximum panic.
* C24: tokio reports success although a retransmission failed.
* C28, C31: the first delivery of a QoS 2 message with dup flag is not handed to the application.
* C32, C33: a request whose write fails is lost.
* C37, C39, C40: keep-alive stays off after a connection without it; intervals above 65535 s; smol ends an idle connection
  without keep-alive after an hour; incoming traffic postpones smol's ping; an imposed interval survives reconnection.
* C41: two packets in one chunk; debug builds: last byte alone.
* C42: an interrupted read loses the bytes it has taken.
* C43: a CONNACK in pieces.
* C44: keep-alive modulo 65536 s; imposed interval in the next CONNECT (tokio).
* C76: while the network is being dropped, after its session and before the request channel, a call returns Ok and its request is lost.
* C53: C41 and C42 in complete executions: a message that arrives with CONNACK is not handed over (smol); a request in the middle of a
  message makes the client read its payload as packets (tokio).
* C54: C07 in a complete execution (smol).
* C55: a handler that awaits a client call while the channel is full or no identifier is free waits for ever, and with it the network task.
* C56: `PingPong` panics on a text in which a character spans byte 10.
* C57: topics with wildcards, neither topic nor alias, SUBSCRIBE without topics.
* C58: tokio goes on writing after a retransmission that failed.
* C59: none of the limits in CONNACK is looked at; DISCONNECT is not measured against the client's own maximum either.
* C61: `run` called again on the same connection after its future was dropped: acknowledgements and requests are missing; smol ends the next
  connection because of a ping sent on the previous one; a QoS 2 message whose handler was dropped is not handed over again.
* C62: a packet cut by a dropped future is followed by other packets on the same connection; the broker reads a packet that nobody sent.
* C67: a broker that lost the session, whose CONNACK saying so is lost, and that says at the next connection that it has a session, passes a
  QoS 2 message on twice. MQTT 5 allows this broker.
* C72: tokio reports success although a retransmission failed (C24); the exchange stays unanswered on a connected client.
* C77: a tokio client that abandons a read in the middle of a packet can take the payload of a message for a PUBACK: its publish is reported as
  delivered and the broker has passed nothing on (C53 from the broker's side). It can also hand over a QoS 1 message that was never sent (C78),
  or panic (C79).
* C80: two acknowledgements that arrive together at a smol client: the second one stays in the buffer, the exchange stays unanswered. tokio, after a
  read abandoned in a message: the client waits for the rest of a packet nobody sent.
* C82: publish to `a/#`, to an empty topic without alias, with alias 0; subscribe to `a#`, to no filter, with No Local to a shared subscription: all
  are written.
* C91: the stream reader of tokio goes on past the announced length, a message with a wrong property length has no end; the buffer of smol keeps
  every second packet when they arrive in pairs.
* C92: receive maximum, maximum packet size and topic alias maximum are announced and not enforced.
* C93: a run that is dropped while its handler awaits the send of a request loses the identifier of that request.
* C94: when all handles are dropped while a subscription is unanswered, the next connect fails with an error about that identifier; the one after it succeeds.
* C73: a QoS 2 message whose first transmission was lost is sent again with the dup flag, acknowledged, and never handed over (C28 from
  the side of the broker).

## Testing the theorems

`seeded/LOG.jsonl` records deliberate errors put into a scratch copy of the model. For each: the edit, the claim it breaks, the
theorems that no longer hold, and what was tightened when a theorem survived. A theorem counts as failed when, after the lemmas
whose proofs break have been admitted in the scratch copy, `Print Assumptions` shows that it rests on one of them.
That a proof breaks does not show that the statement is false. `theorems_failed` therefore lists only those of the failed theorems
that were judged, by reading the statement, to be false of the edited program; the negation was proved only where the note says so.
Attempts that were not judged, or whose edit did not compile, have an empty list and a note.
