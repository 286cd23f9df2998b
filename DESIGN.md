# Formal model of scottlamb/elkm1 in Coq: design

The code is in /repo (Rust).  The model is in /verif/rocq/theories, one model file per
source file; proofs are kept in separate files; the property theorems are in
`Prop*.v` files, with `Print Assumptions`, the non-vacuity `Example`s and (in the later
ones) the lemmas only they need.

## Conventions of the model

* A byte is an `N` (hypothesis "every element < 256" where it matters); byte strings,
  Rust `String`s, `Vec<u8>` and `BytesMut` are `list N`.  Lengths and indices are `nat`.
* `res A = Ok a | Err e | Panic why`.  `Err` is Rust's `Err`, `Panic` is a Rust panic:
  out-of-range slice or index, `unwrap/expect` on a bad value, `assert!`,
  `unreachable!`, `todo!`, slicing a `str` inside a character, and integer overflow
  (overflow checks on, i.e. the debug profile; C118 proves that without them nothing changes).  Wrapping operations are modelled with `mod`.
* `&mut` parameters become returned values.  `while` loops become recursion on fuel; running
  out of fuel is `Panic`, and the theorems show it does not happen.
* Error texts of packets and messages are modelled exactly, as the strings `format!` makes; texts of panics are only labels.
* The socket, the clock, the waker identity and the MQTT broker are inputs ("oracles") of the
  transition functions, universally quantified in the theorems.

## Files

| file | models |
|---|---|
| Base.v | Rust primitives: slices, `u8::from_str`, `format!`, UTF-8 validity |
| Pkt.v | elkm1/src/pkt.rs |
| Msg.v | elkm1/src/msg.rs |
| Tokio.v | elkm1/src/tokio.rs, and the part of tokio-util 0.7 `Framed` it relies on |
| Pair.v | two Connections joined by a line, as elkm1/src/tokio.rs testutil::socketpair |
| State.v | elkm1/src/state.rs |
| Mqtt.v | elkm1-mqtt/src/main.rs (logic) |
| Config.v | elkm1-mqtt/src/main.rs: the configuration file, and `main` up to `inner` |
| Queue.v | the bounded channel between the bridge and the MQTT event loop |
| Cli.v | elkm1-cli/src/main.rs (logic) |
| Eq.v | `==` on messages |
| Fuzz.v | the `Arbitrary` impls of msg.rs and fuzz/fuzz_targets/*.rs |
| FmtMsg.v, Fmt.v | the Debug impls of msg.rs and pkt.rs, and of state.rs, as the names, fields and elements handed to std's Formatter |
| Layout.v | the characters std makes of them, `{:?}` and `{:#?}`; hex_dump() is a parameter |
| Hex.v | pretty_hex's dumps, and the Display implementations of packets that use them |
| Log.v | every tracing call of tokio.rs, state.rs and elkm1-mqtt/src/main.rs, but one |
| WatchLog.v | what `elkm1-cli watch` logs at all levels, with the lines of Log.v |
| WakeInit.v | connecting as a task: what it waits for, who wakes it, the executor |
| WakeWatch.v | `elkm1-cli watch` as a task: connecting with the wakers of WakeInit.v, the loop with those of Wake.v, the executor |
| WakeBridge.v | the bridge as a task: what it waits for, who wakes it, `select!` in either order, the executor |
| FmtText.v | what `elkm1-cli read` prints |
| Serde.v | the serde impls, over a JSON-like value type |
| JsonText.v, BridgeText.v | the JSON text of such a value, written and read; the bridge from the configuration file's bytes to published bytes |
| Spec*.v | independent specifications used by the theorem statements |
| *Facts.v | proofs |
| Prop*.v | the property theorems |
| RepoTests.v | the unit tests of /repo, run on the model (tests, not proofs) |

## Per property: what is modelled, how it is proved

* C01 decode losslessness: `drain` = the fuzz target's loop; induction on the input length using C06.
* C02 round trip: case split ASCII/RP, loop invariant of the RP scanner over the escaped body; sequences by induction.
* C03 prefixes: same loop invariant, cut at the prefix length.
* C04 chunking: monotonicity of `decode` in the suffix, then induction over the reads of `Framed`.
* C05 exact frames: independent frame relations in SpecPkt.v; soundness by inversion of the decoder, completeness is C02.
* C06 progress: inversion of the decoder.
* C07 bounded buffering: false (an RP frame whose DLE ETX falls at offset 1021 or 1022 is never completed nor rejected); `_refuted` with a witness family, and `_partial` giving the exact set of buffers that wait.
* C08 single-byte ASCII corruption: arithmetic of the checksum mod 256, printable bodies contain no CR LF.
* C09 CRC: the table entry of a byte is linear (xor of the entries of its bits), which relates a table step to eight bit steps without enumerating states; polynomial division by induction on the body.
* C10 RP corruption: CRC step is injective in state and in byte.
* C11 resynchronisation: scanner loop invariant.
* C12-C18 messages: wire format and grammar given independently in SpecMsg.v; per-message proofs; enumerations by exhaustive sweep (finite domain).
* C19-C25: direct, independent characterisation.
* C26, C27: false of the code (year 2100; multi-byte characters): `_refuted` + `_partial`.
* C28-C46 Panel: transition system with all stream/sink calls; invariants by induction over histories; history specifications written on the list of outputs.
* C37 false (SD reply with an out-of-range number indexes past the table), C32 false (ZS report changes silently), C43 false (reply-looking message before the flush), C44 false (`poll_close` only flushes): `_refuted` + `_partial`.
* C23, C47 false (`>` instead of `>=` excludes FireAlarm): `_refuted` + `_partial`.
* C36 connecting: a closed system of the client and a panel that answers (SpecInit.v): the panel answers each request it has received, in any order relative to unrelated packets, bytes arrive in any chunks, writes are accepted in any pieces.  Safety by an invariant over all executions; success by a lexicographic measure over fair infinite executions.
* C45, C28: what a history of reads "owes" the caller (SpecConn.v), every poll answers the head of what is owed.
* C48-C52 bridge: transition system over panel events and MQTT publishes, the broker's retained store is a finite map; invariant by induction. C51 false (documented deadlock; `todo!()` in the ZS serialiser).
* C53, C54 CLI: corollary of C01; direct.
* C57, C58 bridge: discovery messages and the event topic, as further invariants over the same runs.
* C59 arm code: false (the event that completes an arm command carries the code); relational proof over all inputs (two runs with different codes publish the same except for that code; PropCode.v).
* C60, C61 fuzz targets: `makes_exactly` (which values a generator makes, for any bytes) composed over the generators; the targets by C01, C02, C12. C61 false (4096 of the arm codes).
* C62, C63, C64 logs: Debug as a function on well-formed values (`message_tree`), injective; `dbg_entries` characterised by position. C62 false for deserialised values, C64 false for names that start with a space.
* C65 JSON names: a relation `alike` between Debug trees and JSON values, by cases on messages. False for the clock's fields.
* C66 configuration: a relation between JSON values and configurations (SpecConfig.v), proved to be what deserialisation computes, both ways. C67-C69: invariants over the bridge's runs; false in part (late checks, equal names, a blocked bridge stays online).
* C70 line errors: body and checksum form a multiple of the generator in GF(2)[x]; a burst is smaller than the generator after removing powers of x (its constant term is 1), the generator has even weight, and the order of x modulo the generator exceeds the frame's bits (8192 steps of computation). False for errors that create a DLE.
* C71, C72 liveness of the panel: `healthy` panels (nothing but data has arrived) deliver the packets received one per poll, by induction over what `drain` says is left; ended connections are an invariant under which nothing happens any more.
* C43 exact and C72: the outstanding command is unchanged by everything but its reply (step lemma), by induction over histories.
* C73 which errors in the body or checksum of an ASCII frame are caught: exactly those changing the sum modulo 256 or printability (PropSum.v); false for reorderings.
* C74 bounded channel between bridge and MQTT event loop: refinement of Mqtt.v by Queue.v (PropQueue.v); false at the end of the process.
* C75 independence of receiving and sending: simulation between panels that differ only in write half and command state (PropIndep.v); the converse from C42 and that wire formats are functional.
* C76 clock: relation between runs whose deadlines are passed at the same polls (PropIndep.v).
* C77 receiver wake-ups (Wake.v, PropWake.v): the calls again with the task that makes them and the wakers left with the socket, the timer and CmdState; proved equal to the calls without wakers when those are forgotten
* C78 sender wake-ups: refuted for poll_ready and poll_flush when a matching message arrives before the command is written; otherwise proved, with the exact exception
* C79, C80 JSON text: the grammar of RFC 8259 as relations (SpecJson.v); the model reader computes exactly the relation (soundness by fuel induction, completeness by induction over the grammar), the writer's text is in it. Names from the configuration file are UTF-8 because the reader checks them (TextFacts.v).
* C81 reasons of invalid packets: one relation `explains` per text (SpecReason.v); the decoder's answer is inverted case by case, uniqueness from determinism of the decoder on explained bytes.
* C82 reasons of malformed messages: lists of requirements with texts (SpecReason.v); each parser follows its list, by composition lemmas over bind, if and mapM (ReasonFacts.v).
* C83 the bridge end to end: the runs of C48/C49/C58 after the run of `connect` (`bridge_history`), with the packets of both runs put together.
* C84 texts of logs and of `read`: PropLog.v, LogFacts.v; every text is self-delimiting
* C85 the end of connecting: causes of an error as an inductive over the history (SpecFail.v), and a measure (packets left, phase) for termination.
* C86 the log as a record of the traffic: Log.v, PropTrace.v; what a step logs against what it takes and writes, then induction over histories (SpecTrace.v has the lines)
* C87 the lines about arming: PropTrace.v; case analysis of a poll, then an invariant that ties the story told so far to the report on hold
* C88 the bridge's log: PropBridgeLog.v; each input of the bridge as operations on the panel, so that C86 and C87 apply to the library's lines
* C89 the arm code in the log: PropLogCode.v; simulation of two runs that differ in the code, from C59. False for the lines about commands, `_refuted` and `_partial`
* C90 the log of connecting: PropChron.v; a grammar of the log (SpecTrace.v), an invariant over the steps of connecting
* C91 how much is buffered: PropBuffer.v; a potential (17 bytes per command) kept by each step, invariants of connecting and of the bridge; C07 for what was read. `_refuted` by a round that returns to the same panel with 13 more bytes unwritten
* C92 two connected ends: Pair.v is the closed system of two Connections and the bytes between them; PropPair.v, by an invariant for each direction (PairFacts.v) that joins what was accepted, written, arrived and answered; C45, C02 and C03 carry the rest
* C93 commands are completed: SpecSend.v is the closed system of a caller, the panel and the network; PropSend.v, by an invariant and a measure (SendFacts.v) as for C36
* C94 everything watch logs: WatchLog.v on top of Log.v and Cli.v; SpecWatch.v, PropWatch.v
* C95 connecting with wakers: WakeInit.v, the steps of State.v with the task, its wakers and the room in the socket; SpecWakeInit.v, PropWakeInit.v (uses the measures of C36 and C85)
* C96 equality: packet_eqb of Pkt.v; SpecEq.v, PropEq.v
* C97 the caller of C93 as tasks run only when woken: SpecTasks.v on top of Wake.v; PropTasks.v maps an execution to one of C93 in which tasks that are not due are run in between, to no effect
* C98 the bridge with a panel that answers and clients that wait their turn: SpecServe.v on top of Mqtt.v; ServeFacts.v maps each move to two of C93's exchange (the bridge is a caller of Panel, given commands by the channel), and shows that the task gets back to select! and reads events again and again; PropServe.v
* C99 the program from its start: SpecProgram.v adds connecting to SpecServe.v; ProgramFacts.v shows that while it connects it is C36's client, with a rank that goes down, and that from the moment it comes up it is C98's bridge; PropProgram.v
* C100 the bridge as a task: WakeBridge.v adds wakers to the bridge of Mqtt.v, putting together those of Wake.v and WakeInit.v; HostFacts.v has the invariant (not due, so nothing to do); PropHost.v, where a fair execution is turned into one of C99 by adding polls that change nothing
* C101 no busy loop: SpecRest.v counts the runs made because the task of WakeBridge.v is due; PropRest.v has a measure of the work left that every such run decreases
* C102 up to date at rest: SpecShown.v says when the task of WakeBridge.v listens; PropShown.v follows the time of a held report through the runs and joins C83, C100 and C101
* C103 everything is told: SpecEvery.v says what has been sent and what has arrived in an execution of SpecHost.v; PropEvery.v shows that packets keep being taken up, from C100 while a command is under way and from the fairness of the executor otherwise, and joins this with C83's account of the topics
* C104 clients that do not wait: SpecAny.v drops the condition on clients from SpecProgram.v and SpecHost.v; PropAny.v shows that until commands overlap the bridge goes through states of C99's program in which each message arrives just when it is taken from the channel, so that all of C99 applies, and that every message is taken in the end
* C105 everything told with clients that do not wait: PropEvery.v shows C103 for the executions of SpecAny.v without overlapping commands, and derives C103; what the broker shows in the meantime needs no such condition
* C106 what watch tells, in terms of packets: SpecStory.v says what lines the events call for (`narrates`), given only the packets before; PropStory.v carries `telling` along the loop and shows that narrates determines the lines
* C107 how watch ends: by the outcomes owed for what has arrived (SpecConn.v), of which a number has been read (PropFail.v's read_so_far, also when connected); C107_held_report_lost is a witness
* C108 watch as a task: WakeWatch.v puts the tasks of WakeInit.v and the calls of Wake.v behind watch; PropView.v (C108_ends turns a fair execution into one of C95 until it is connected, and counts what is left to read after that)
* C109 watch with a panel that answers: scenes of SpecView.v (panel and network of SpecInit.v around the task of WakeWatch.v); PropScene.v uses C95's ranks until it is connected and then a rank of the bytes missing from the first packet not told
* C110 watch does not run in circles: PropCalm.v, with the weights of C101
* C111 when a client goes deaf: PropDeaf.v; C07 says which long buffers make decode wait, this extends it to all buffers, to the panel, the bridge and watch
* C112 the programs from their command line on: Main.v (main), SpecMain.v, PropMain.v
* C113 size hints: Fuzz.v (hint_*), PropHint.v
* C114 hex dumps and Display of packets: Hex.v, SpecHex.v, PropHex.v
* C115 Home Assistant's side of the discovery: SpecHa.v, PropHa.v
* C116 the broker over several runs of the bridge: SpecRestart.v, PropRestart.v
* C117 against a panel that is what it says: SpecTruth.v, TruthFacts.v, PropTruth.v
* C118 release and debug builds: Release.v, PropRelease.v
* C119 the panel's input buffer: SpecFlow.v, FlowFacts.v, PropFlow.v
* C120 from a button in Home Assistant to the panel: PropButton.v
* C121 quoting in errors and in the log: SpecLiteral.v, PropLiteral.v
* C122 soundness of the one `unsafe` block, and from_utf8: SpecUtf8.v, PropUnsafe.v
* C123 from the panel to Home Assistant, and that nothing else is announced: PropHouse.v
* C124 that what is shown becomes right for good, and when it need not: SpecSettle.v, PropSettle.v
* C125 that the events are enough to follow arming status and zones: SpecFollow.v, PropFollow.v
* C126 that two clients of one panel come to agree, and exactly when: SpecAgree.v, PropAgree.v
* C127 that reading a recording shows what was received: SpecRecord.v, PropRecord.v
* C128 that what is known of one area or zone does not depend on the others, false for areas while a report is held back: SpecApart.v, PropApart.v
* C129 that a panel is asked for nothing but states and names unless a message asks: SpecUnasked.v, PropUnasked.v
* C130 that the order of the maps makes no difference, a relation between two runs in lockstep; false for equal names: SpecOrder.v, PropOrder.v
* C131 that adding areas and zones changes nothing for the others, a relation between two runs in lockstep; false for equal names: SpecMore.v, PropMore.v
* C132 what a wrong byte costs: one packet, or, in the length, all that follow: SpecLoss.v, PropLoss.v
* C133 what a lost or added byte costs: all reports of changed zones that follow, or one packet: SpecLoss.v, PropLoss.v
* C134 is it noticed when the panel has gone: SpecGone.v, PropGone.v
* C135 what a reader of the JSON puts up with: SpecTolerant.v, PropTolerant.v
* C136 what brings the decoder back in step: SpecResync.v, PropResync.v
* C137 what the bridge shows after a byte was wrong or lost: PropStale.v (SpecLoss.v, SpecMqtt.v)
* C138 bridges that share a broker: PropShare.v (SpecShare.v)
* C139 to which topics the bridge listens: PropListen.v (SpecListen.v)
* C140 a command is carried out once: PropOnce.v (SpecOnce.v, SpecListen.v, SpecUnasked.v)
* C141 values out of range on the wire: PropUnchecked.v (SpecUnchecked.v)
* C142 areas of the same name: PropSame.v (SpecSame.v)
* C143 zones of the same name: PropSameZone.v (SpecSameZone.v)
* C144 how much is published for an event: PropSize.v, PropSizeAscii.v (SpecSize.v)
* C145 how much is published besides events: PropFits.v (SpecModest.v)
* C146 which and how many publications an event causes: PropTraffic.v (SpecTraffic.v)
* C55, C56 serde: false in part (transparent derives skip validation; `todo!()`); `_refuted` + `_partial`.

## Trusted base

* Coq 8.16.1's kernel (and, in vcheck, coqchk).
* Assumptions of the theorems: `Print Assumptions` answers "Closed under the global context" for every theorem named in
  MANIFEST.json (each Prop*.v ends with these commands): no axioms, neither ours nor the standard library's.
  The libraries loaded (ZArith, lia, List, String) do contain some (for instance Coq.ssr.ssrunder), which coqchk
  lists; no theorem depends on them.
* That the model is the code.  The model was written from the source text, function by function, with the lines cited at
  each definition.  It cannot be compared mechanically with the code here, as nothing can be built in this sandbox.
  RepoTests.v runs all unit tests of the repository (pkt.rs, msg.rs, state.rs) on the model.
* That the statements in Prop*.v and the definitions in Spec*.v say what properties.jsonl says.

### What is modelled, and from what

| part | status |
|---|---|
| elkm1/src/pkt.rs | all; Debug as the structure written (FmtMsg.v, Fmt.v); error texts exactly; Display and hex dumps (Hex.v) |
| elkm1/src/msg.rs | parse, to_pkt, is_response_to, every message, every field type, ISO 8601, error texts exactly, Debug as the structure written (FmtMsg.v, Fmt.v) |
| elkm1/src/tokio.rs | Connection's Stream and Sink, what they log; not connect/DNS |
| elkm1/src/state.rs | Panel: connect (as a step machine), Stream, Sink, accessors, Debug as the structure written (FmtMsg.v, Fmt.v), what is logged (Log.v) |
| fuzz/, Arbitrary impls | all |
| serde derives | over a JSON-like value type; the text serde_json writes and reads for a value in JsonText.v |
| elkm1-cli | `read` and `watch`: lines as their fields, and their text for `read` (FmtText.v) and what watch logs at all levels (WatchLog.v); opening the file (Main.v); not argument parsing |
| elkm1-mqtt | configuration as JSON values, options for the broker, start-up, event handling, command handling, discovery; JSON text of the configuration and of what is published; what is logged (Log.v), but for the TRACE line of main.rs:335; command line arguments and reading the file (Main.v); not setup_tracing |

Code that is not in the sandbox is modelled from its documentation, or is a parameter:

* tokio-util 0.7's `FramedImpl` (Tokio.v): read buffer, end of file, error, write buffer, the 8 KiB boundary.  The socket is
  arbitrary: any chunks, errors, partial writes, at any time.
* serde/serde_json (Serde.v): what derives expand to; JSON values; their text in JsonText.v, from serde_json's documentation (strings in ignored members are checked as all others, an escaped number key is taken as a number key, error texts are left out; the recursion limit does not matter as ignored values are skipped iteratively).
* arbitrary 1.4 (Fuzz.v): `bytes`, `fill_buffer`, `int_in_range` and what derive(Arbitrary) expands to; libfuzzer runs the target once per input.
* std's Formatter (FmtMsg.v, Fmt.v, Layout.v): a derived Debug writes the name and all fields in order; layout and quoting are written after std's documentation. pretty_hex's dumps are a parameter, of which SpecLog.v says what is assumed; Hex.v models its format after its documentation, and C114 shows that the assumption holds of it.
* tracing (Log.v): a call records its level, its text and its fields in order; time stamps, target, span and filtering are not modelled.  How rumqttc shows a Publish and bytes a payload are parameters, functions of topic and payload (packet id and QoS of a received message are not modelled).
* rumqttc (Mqtt.v, Config.v): options are the values given to it; a request records its quality of service, which has no effect in the model; the broker publishes the last will when the process ends; which topics and filters it accepts is a parameter.  In Mqtt.v a request it accepts takes
  effect at once and in order; Queue.v adds its request channel (capacity 10), from which the event loop takes requests at any time or not
  at all, and proves the two related (C74).  Acknowledgements, reconnects and redelivery are not modelled.
* tokio timers: a `Sleep` is its deadline, ready when polled at or after it.  Wakers are numbers, `will_wake` is equality; that a
  runtime polls a woken task is not modelled; which tasks the socket, the timer and Panel wake is (Wake.v for C77 and C78, WakeInit.v for C95, WakeBridge.v for C100, WakeWatch.v for C108, with the channel's receiver: each
  keeps the last waker it was given while answering Pending, and forgets it when it wakes).
* `select!` (WakeBridge.v) polls its two branches in either order until one is ready.  The wakers of the MQTT event loop are left out, which shares the task: it may be
  polled for no reason.  A run that tokio's cooperative budget cuts short is a run that is not made.
* The MQTT broker over several runs (SpecRestart.v, only for C116): it keeps the last retained message of each topic when the client is gone, gets some beginning of what the client asked for, and publishes the last will when the connection ends (the bridge never sends DISCONNECT). No code of a broker or of rumqttc is modelled.
* The panel that is what it says (SpecTruth.v, only for C117): it reports every change of a zone or of the arming, its status reports are right, and its only fault is a report with an area fully armed directly before the right one, as described in state.rs:60-68. This is an assumption about the device, in the hypotheses of C117 and nowhere else.
* Home Assistant (SpecHa.v, only for C115): what it takes from an announcement, the defaults of the options, the states it knows and the commands it sends, after the documentation that main.rs links to. No code of it is modelled.
* futures' `SinkExt::send` (`feed` then `flush`) and `StreamExt::next`.

Other simplifications: integer overflow panics (the debug profile; Release.v models the release profile and C118 proves them equal on all that is reachable, with a usize of 64 bits), memory is unbounded, `HashMap` iteration order is an arbitrary
but fixed order (which one makes no difference, if names are distinct: C130), `usize` is unbounded (every length involved is far below 2^32).

## Findings about the code

Each is a theorem `..._refuted` with a concrete, reachable witness.

* C07: an RP frame whose DLE ETX comes at offset 1021 or 1022 stalls the decoder for ever.
* C23/C47: `is_firing` excludes the fire alarm (`>` instead of `>=`), so the bridge shows a fire as the arming mode.
* C26/C27: ISO 8601 accepts the year 2100 but prints it with 3 digits; a multi-byte character can make parsing panic.
* C32: a zone status report after connecting changes statuses silently.
* C37: a name reply with a number beyond the table panics the client while connecting.
* C43: a reply that arrives before the flush makes `poll_flush` report success with the command unsent.
* C44: closing the sink never shuts the connection down.
* C51: a zone status report crashes the bridge; two commands in quick succession block it for ever.
* C55: deserialising skips every range check.  C56: zone status reports cannot be serialised, dates cannot be read from a reader.
* C59: the arm code is published in the event that completes an arm command.
* C61: the fuzz generator of arm codes shifts its bytes too far and makes only 4096 of the codes.
* C62: messages read from JSON can panic when logged (arm code or text not UTF-8, zone status above 15).
* C64: `TextDescription::is_empty` looks only at the first character; names that start with a space are left out of the log.
* C65: `RtcData` lacks `rename_all`, so two JSON fields are snake_case among camelCase ones.
* C67: the numbers in the configuration are checked only while publishing: a non-existent area stays announced for ever.
* C68: areas or zones of the same name share their topics.
* C69: a blocked bridge remains "online".
* C70: one wrong bit can make a frame end early and be accepted as another packet (the checksum does not cover the framing).
* C71: the five-second timer is starved by unrelated packets, and a held report is lost at the end of the stream.
* C72: the end of the stream does not wake a waiting sender; it waits for ever.
* C73: the ASCII checksum is a plain sum, so a frame whose body characters arrive in another order is accepted. With two neighbouring characters exchanged, "arm area 1 to stay" is "arm area 2 away", with the same checksum. (The protocol's design, not this code's choice; see C70 for RP.)
* C74: when the panel closes the connection right after a report, the bridge panics (main.rs:449 unwraps None) with the publishes of that report still in the channel; the broker then announces "offline" but goes on retaining the old area state.
* A sender that waits for a full socket is not woken when a matching message completes its command first (state.rs:360-366 returns before storing the waker); it is woken when the socket takes bytes again (C78).
* C82: a description reply with 5 to 20 bytes of data is refused with "expected at least 5 bytes" (msg.rs:1420 needs 21); texts about numbers say "[0, 255)" but 255 is accepted; a wrong area digit is shown as its character code ("expected area in [1, 8], got 57"); `stringify!(t)` in msg.rs:552 prints "t" instead of the type's name.
* C89: the arm code is logged at INFO, the default level, in the event that completes an arm command.
* C91: Panel::poll_ready never asks the connection whether it is ready, so the back pressure of tokio_util (8 KiB) never takes effect; with replies that overtake the flush, unwritten bytes pile up although every flush answers Ready(Ok).
* watch: if the panel reports that an area is fully armed and closes the connection within the five seconds for which the report is held, watch returns without telling (C107_held_report_lost). The timer is only looked at when there is nothing to read, and a closed connection always has something to read.
* C111: the frames of C07 make the panel, the bridge and watch deaf for good: nothing that the panel sends later is seen, no command is completed, and neither program ends; the bridge remains "online".
* C115: Home Assistant's MQTT binary_sensor compares with payload_on = ON and payload_off = OFF unless the announcement says otherwise; the bridge publishes on, off, offline and announces neither option, so Home Assistant understands no state of a zone. The alarm panel is announced without supported_features, so four commands are offered that the bridge ignores.
* C116: announcements are retained and never withdrawn: an area or zone removed from the configuration stays in Home Assistant, available, in its last state, and deaf to commands.
* C117: a spurious 'fully armed' report that comes while another report is held back is believed at once: arm area 2 without delay, then area 1 with a delay within five seconds, and area 1 is shown as armed although it is on its exit timer.
* Waiting for a response after each command (state.rs:8-13) keeps the panel's 250-byte buffer from overrunning only while few packets are taken for a response that are none: a task started, or a code entered, by others counts as the response to a command on the way (C119).
* C124: `poll_next` (state.rs) looks at the timer of a held arming report only when no packet is available. A panel that sends something each time the task is run keeps the report from ever being shown; five seconds are not an upper bound then.
* C125: the event for an arming report that takes effect late (state.rs:326-331) carries neither packet nor message, and `Change::ArmingStatus` gives the prior status only. If the report came while connecting, no event ever tells what the arming status has become (it is on the accessor, and on the area's state topics, only).
* C128: a report is held back as a whole. If by the same report one area becomes fully armed from disarmed and another is in alarm, the alarm is shown up to five seconds late.
* C130: if two areas of the configuration have the same name, it is decided anew at each start of the bridge, by the random order of a hash map, which of the two a command arms or disarms.
* C132: the decoder goes by the announced length and looks for two hexadecimal digits, not for the end of a line, to find the next packet. One wrong byte in a length can put it out of step for as long as the same kind of message follows; after a wrong digit in the length of any report that one of the zones 1 to 99 has changed ("0AZC0..."), it then finds "C0", which it takes for a length, 196 bytes in all; that is exactly fourteen such reports, so that the decoder is at the "C0" of the fifteenth, and so on for ever, as long as it is zones that change. C133: the same happens if any one byte of such a report is lost, or a zero is added before one.
* C134: there is no timeout anywhere. If the panel loses power or the cable is cut, so that nothing comes and the connection is not closed, Panel's stream of events just waits, and the bridge stays "online" with the last states for ever, although the panel sends heartbeats. A command is then written and never completed; with the next one the bridge waits for ever, even if the connection is closed later. Panel::connect has no timeout either: if a request is not answered, the bridge never comes up and never writes the availability topic.
* C137: a single byte lost between the panel and the decoder (a serial adapter behind the socket, say) can leave the bridge showing old zone states for ever while it says it is online: the decoder takes the length from wrong bytes and, as all reports look alike, from the same wrong place each time.
* C138: with a configured topicPrefix, nothing but this prefix tells two bridges apart: given the same prefix, they share availability, states and commands, although Home Assistant sees two panels (the unique ids have the serial number); nothing detects it.
* C140: handle_publish ignores the retain flag. A DISARM that somebody published with this flag is carried out again whenever the bridge starts, also years later.
* C141: a message read from JSON with a value out of range is not always refused by to_pkt; a zone status above 15, a keypad above 99, an area above 9 of a timer and the year 2100 are written with too many digits and read as other values.
* C142: two areas of the same name are accepted; their topic then shows one of them and commands on it go to the other, so that a house can be shown as disarmed while the area that is commanded is armed.
* C143: two zones of the same name are accepted; their topic shows the one that changed last, so that an open door can be shown as closed.
* C144: 1026 bytes of noise from the panel, or a long RP packet, make an event whose JSON is larger than 10 KiB; rumqttc's default limit makes the event loop fail, and the bridge ends.

## Tests of the theorems

seeded/LOG.jsonl records edits of the model that correspond to realistic bugs, and which theorems then fail.  tools/mutate.py
runs one such edit in a scratch copy: it replaces every proof that breaks by Admitted there, so that all others are still
checked, and lists the property theorems that depend on a broken proof.
