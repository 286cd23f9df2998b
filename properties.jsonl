{"id": "C01", "title": "Decoding a byte stream loses and invents nothing", "statement": "Calling Packet::decode on any buffer until it returns None, and then encoding every returned packet in order and appending the bytes left in the buffer, gives back exactly the original bytes; no call panics.", "quantifier": "every byte string of every length", "why_tests_cant": "the input space is unbounded; the fuzz target only samples it", "anchors": ["elkm1/src/pkt.rs:Packet::decode", "elkm1/src/pkt.rs:Packet::encode", "fuzz/fuzz_targets/depkt.rs"]}
{"id": "C02", "title": "Encoding then decoding a valid packet is the identity, whatever follows it", "statement": "For every AsciiPacket or RpPacket accepted by TryFrom, encoding never panics, and Packet::decode on the encoding followed by any bytes returns exactly that packet and leaves exactly those following bytes; a concatenation of encodings of any sequence of such packets decodes to that sequence.", "quantifier": "every valid packet, every sequence of valid packets, every trailing byte string", "why_tests_cant": "unbounded bodies, sequences and trailing bytes", "anchors": ["elkm1/src/pkt.rs:AsciiPacket::encode", "elkm1/src/pkt.rs:AsciiPacket::decode", "elkm1/src/pkt.rs:RpPacket::encode", "elkm1/src/pkt.rs:RpPacket::decode", "fuzz/fuzz_targets/pkt.rs"]}
{"id": "C03", "title": "An incomplete packet makes decode wait, without touching the buffer", "statement": "If the buffer holds a strict prefix of the encoding of a valid packet, Packet::decode returns None and leaves the buffer unchanged.", "quantifier": "every valid packet and every strict prefix of its encoding", "why_tests_cant": "every split point of every packet", "anchors": ["elkm1/src/pkt.rs:Packet::decode (doc item 2)"]}
{"id": "C04", "title": "How the bytes are chunked by the network does not change the packets received", "statement": "If decode returns a packet from a buffer, it returns the same packet when more bytes are already behind it; hence a Connection reading any byte stream, split into reads in any way, yields the same packet sequence and keeps the same unread bytes.", "quantifier": "every byte stream and every way of splitting it into non-empty reads", "why_tests_cant": "the number of splittings is exponential in the stream length", "anchors": ["elkm1/src/pkt.rs:Packet::decode", "elkm1/src/tokio.rs:Codec::decode", "elkm1/src/tokio.rs:Connection::poll_next"]}
{"id": "C05", "title": "A decoded packet is really there: exact frame recognition", "statement": "decode returns an ASCII packet with body b exactly when the buffer starts with the frame 'two uppercase hex digits of len(b)+2, b, two uppercase hex checksum digits making the byte sum 0 mod 256, CR LF' with b printable and 2..253 bytes long; it returns an RP packet with body d exactly when the buffer starts with 10 02, d with every 10 doubled, 10 03 and the big-endian CRC of d, in at most 1024 bytes; in both cases it consumes exactly that frame.", "quantifier": "every buffer", "why_tests_cant": "an exact characterisation ranges over all buffers", "anchors": ["elkm1/src/pkt.rs:Packet::decode", "elkm1/src/pkt.rs:AsciiPacket::decode", "elkm1/src/pkt.rs:RpPacket::decode", "elkm1/src/pkt.rs:AsciiPacket::checksum"]}
{"id": "C06", "title": "Decode always makes progress and invalid packets are bounded", "statement": "Whenever decode returns a packet it has consumed between 1 and 1024 bytes from the front of the buffer; an Invalid packet carries exactly the consumed bytes; when decode returns None the buffer is unchanged. So draining a buffer of n bytes takes at most n calls.", "quantifier": "every buffer", "why_tests_cant": "termination and consumption over all inputs", "anchors": ["elkm1/src/pkt.rs:Packet::decode", "elkm1/src/pkt.rs:InvalidPacket::MAX_LEN", "elkm1/src/pkt.rs:RpPacket::decode_unfinished"]}
{"id": "C07", "title": "The decoder never waits forever: buffered unread data stays bounded", "statement": "Once the buffer holds more than 1025 bytes decode returns a packet (valid or Invalid), so a peer cannot stall the stream or make the read buffer grow without bound.", "quantifier": "every buffer longer than 1025 bytes", "why_tests_cant": "requires all 1026-byte-and-longer inputs", "anchors": ["elkm1/src/pkt.rs:RpPacket::decode", "elkm1/src/pkt.rs:RpPacket::decode_unfinished", "elkm1/src/pkt.rs:Packet::decode"]}
{"id": "C08", "title": "Any single corrupted byte in an ASCII frame is detected", "statement": "Replace any one byte of the encoding of an ASCII packet by any other byte, append any bytes: the first decode never returns a valid packet (it returns Invalid or waits).", "quantifier": "every ASCII packet, every position, every replacement byte, every trailing byte string", "why_tests_cant": "all packets times all positions times all values times all suffixes", "anchors": ["elkm1/src/pkt.rs:AsciiPacket::decode", "elkm1/src/pkt.rs:AsciiPacket::checksum"]}
{"id": "C09", "title": "The RP checksum is CRC-16/XMODEM", "statement": "The two trailing bytes of an encoded RP packet are, big-endian, the remainder of body(x)*x^16 divided by x^16+x^12+x^5+1 over GF(2) (initial value 0, no reflection, no final xor), for a body of any length.", "quantifier": "every RP body", "why_tests_cant": "table-driven implementation against polynomial definition over all inputs", "anchors": ["elkm1/src/pkt.rs:RpPacket::crc"]}
{"id": "C10", "title": "Any single corrupted body byte of an RP frame is detected", "statement": "Change one non-escape body byte (not 0x10, and not into 0x10) of the encoding of a valid RP packet, or any one byte of its CRC: decode returns an Invalid packet made of exactly the frame's bytes.", "quantifier": "every RP packet, position, replacement byte and trailing bytes", "why_tests_cant": "all packets times positions times values", "anchors": ["elkm1/src/pkt.rs:RpPacket::decode", "elkm1/src/pkt.rs:RpPacket::crc"]}
{"id": "C11", "title": "The decoder resynchronises after garbage", "statement": "Any run of bytes none of which is an uppercase hex digit or 0x10, followed by the encoding of a valid packet and any other bytes, decodes to Invalid packets holding exactly the garbage (in pieces of at most 1024 bytes) followed by that packet.", "quantifier": "every garbage run, valid packet and suffix", "why_tests_cant": "unbounded garbage", "anchors": ["elkm1/src/pkt.rs:Packet::decode"]}
{"id": "C12", "title": "Every message survives the trip through its packet", "statement": "For every message whose fields satisfy their types' documented ranges, to_pkt does not panic and Message::parse of the packet returns that same message.", "quantifier": "every well-formed message of all 15 kinds", "why_tests_cant": "field spaces such as 16^208 zone reports cannot be enumerated", "anchors": ["elkm1/src/msg.rs:Message::to_pkt", "elkm1/src/msg.rs:Message::parse", "fuzz/fuzz_targets/msg.rs"]}
{"id": "C13", "title": "Every message survives the trip over the wire", "statement": "Encoding the packet of a well-formed message, followed by any bytes, then decoding and parsing, returns the message and leaves exactly those bytes; distinct messages have distinct wire encodings and none is a prefix of another.", "quantifier": "every well-formed message (pair) and suffix", "why_tests_cant": "unbounded", "anchors": ["elkm1/src/msg.rs:Message::to_pkt", "elkm1/src/pkt.rs:Packet::encode", "elkm1/src/pkt.rs:Packet::decode", "elkm1/src/msg.rs:Message::parse"]}
{"id": "C14", "title": "Parsing never panics", "statement": "Message::parse returns normally on every packet that decode can return or TryFrom can build.", "quantifier": "every packet", "why_tests_cant": "slicing and indexing must be in range for all lengths and contents", "anchors": ["elkm1/src/msg.rs:Message::parse", "elkm1/src/msg.rs:Message::parse_ascii"]}
{"id": "C15", "title": "Parsed messages are always well-formed", "statement": "Every message returned by parse has all numbers in the documented ranges (zone 1..208, area 1..8, keypad 1..16, task 1..32, status nibble < 16, dates and times in range, code six digits, text 16 printable bytes), so no accessor on it can panic.", "quantifier": "every packet", "why_tests_cant": "all accepted inputs", "anchors": ["elkm1/src/msg.rs:Message::parse_ascii", "elkm1/src/msg.rs:limited_u8", "elkm1/src/msg.rs:RtcData::from_ascii"]}
{"id": "C16", "title": "Message packets have the documented wire format", "statement": "The packet body of every well-formed message is the documented layout: command letters, fixed-width decimal or hex fields in the documented order, and reserved zeros.", "quantifier": "every well-formed message", "why_tests_cant": "fixed-width formatting over all field values; round-trip tests do not pin the format", "anchors": ["elkm1/src/msg.rs:to_ascii of each message"]}
{"id": "C17", "title": "Parse accepts exactly the documented grammar", "statement": "On an ASCII packet of at least 4 bytes, parse returns a given message exactly when the body begins with that message's command letters and data fields in the documented positions (decimal fields may carry a leading '+'); it returns no message exactly when the two command letters are not a supported command; otherwise an error. Shorter packets give an error.", "quantifier": "every ASCII packet body", "why_tests_cant": "acceptance and rejection over all bodies", "anchors": ["elkm1/src/msg.rs:Message::parse_ascii", "elkm1/src/msg.rs:parse_u8_dec"]}
{"id": "C18", "title": "Re-encoding a parsed packet is canonical", "statement": "If parse accepts a packet, re-encoding the message gives a packet that parses to the same message, and re-encoding again gives that same packet. (The stronger reading, that re-encoding gives back the original packet, does not hold.)", "quantifier": "every packet", "why_tests_cant": "all accepted inputs, including non-canonical ones", "anchors": ["elkm1/src/msg.rs:Message::parse", "elkm1/src/msg.rs:Message::to_pkt"]}
{"id": "C19", "title": "Reply matching pairs exactly the documented requests and replies", "statement": "is_response_to(m, r) holds exactly for: AS report/as request, ZS report/zs request, RR/rr, IC/arm request, TC/tn of the same task, SD/sd of the same type with number 0 or at least the requested one; in particular no request is ever a reply.", "quantifier": "all pairs of messages", "why_tests_cant": "all pairs of field values", "anchors": ["elkm1/src/msg.rs:Message::is_response_to"]}
{"id": "C20", "title": "Arm codes are exactly the six-digit strings", "statement": "ArmCode::try_from(n) succeeds exactly for n < 1000000 and yields the six-digit zero-padded decimal of n (so distinct numbers give distinct codes); ArmCode::try_from(bytes) succeeds exactly on six ASCII digits and keeps them; every ArmCode arises from exactly one number.", "quantifier": "every u32, every byte string", "why_tests_cant": "2^32 numbers and all strings", "anchors": ["elkm1/src/msg.rs:ArmCode"]}
{"id": "C21", "title": "Zone, area, keypad and task numbers are range-checked bijections", "statement": "try_from accepts exactly 1..max; converting back gives the number; to_index is number-1, below max, and never underflows.", "quantifier": "every u8, all four types", "why_tests_cant": "finite but the four types times all values", "anchors": ["elkm1/src/msg.rs:limited_u8"]}
{"id": "C22", "title": "A zone status is exactly a (logical, physical) pair", "statement": "ZoneStatus::new followed by logical and physical returns the pair; every ZoneStatus built by new or by parsing equals new of its components; its hex digit round-trips.", "quantifier": "every status", "why_tests_cant": "all values and all parse inputs", "anchors": ["elkm1/src/msg.rs:ZoneStatus"]}
{"id": "C23", "title": "is_firing recognises every alarm", "statement": "AlarmState::is_firing is true for every state that is an actual alarm (fire through verify-fire) and false for no-alarm, entrance-delay and abort-delay.", "quantifier": "every alarm state", "why_tests_cant": "the suite has no test of it", "anchors": ["elkm1/src/msg.rs:AlarmState::is_firing"]}
{"id": "C24", "title": "Suspicious transitions are exactly disarmed-to-fully-armed with entry delay", "statement": "is_transition_suspicious(from,to) holds exactly when some area was disarmed in from and in to is in an entry-delay arming mode (away, stay, night, vacation) with up-state 'armed fully'; it never holds for equal reports.", "quantifier": "every pair of reports", "why_tests_cant": "7^8*7^8*19^8 reports squared", "anchors": ["elkm1/src/msg.rs:ArmingStatusReport::is_transition_suspicious"]}
{"id": "C25", "title": "Text descriptions keep the first 16 characters", "statement": "TextDescription::new accepts exactly printable-ASCII strings; the result shows the first 16 bytes of the text with trailing spaces removed, and as_str/Deref/Display agree and never panic.", "quantifier": "every string", "why_tests_cant": "unbounded strings", "anchors": ["elkm1/src/msg.rs:TextDescription::new", "elkm1/src/msg.rs:TextDescription::as_str"]}
{"id": "C26", "title": "ISO 8601 conversion of date-times round-trips", "statement": "Every DateTime accepted by from_iso_8601 prints with to_iso_8601 to a 19-character string which parses back to the same DateTime.", "quantifier": "every accepted string", "why_tests_cant": "all dates and non-canonical spellings", "anchors": ["elkm1/src/msg.rs:DateTime::from_iso_8601", "elkm1/src/msg.rs:DateTime::to_iso_8601"]}
{"id": "C27", "title": "Parsing an ISO 8601 string never panics", "statement": "DateTime::from_iso_8601 returns Ok or Err for every &str.", "quantifier": "every valid UTF-8 string", "why_tests_cant": "all strings including multi-byte characters at slice boundaries", "anchors": ["elkm1/src/msg.rs:DateTime::from_iso_8601"]}
{"id": "C28", "title": "Each received packet yields exactly one event and never panics the Panel", "statement": "After initialisation, for any sequence of polls and any packets, polling the Panel never panics, and the events carrying packets are, in order, exactly the packets received, each with the parse result of its packet.", "quantifier": "every history of Panel polls and every packet sequence", "why_tests_cant": "all histories", "anchors": ["elkm1/src/state.rs:Panel::interpret", "elkm1/src/state.rs:Panel::poll_next"]}
{"id": "C29", "title": "Zone statuses are the last ones reported", "statement": "At any time after initialisation, zone_statuses() for a zone is the status given by the most recent ZS report or ZC change covering that zone; all other packets leave it unchanged.", "quantifier": "every history and zone", "why_tests_cant": "all histories", "anchors": ["elkm1/src/state.rs:Panel::interpret", "elkm1/src/state.rs:Panel::zone_statuses"]}
{"id": "C30", "title": "Arming status is the last reported, at most one report pending", "statement": "At any time after initialisation, either arming_status() is the most recent AS report, or the most recent AS report is held pending and arming_status() is the value from before it; no report other than an immediately superseded suspicious one is lost, and when the deferred event fires arming_status() becomes the most recent report.", "quantifier": "every history", "why_tests_cant": "all histories and timer schedules", "anchors": ["elkm1/src/state.rs:Panel::interpret_arming_status", "elkm1/src/state.rs:Panel::poll_next"]}
{"id": "C31", "title": "Every arming change is announced with the right prior", "statement": "arming_status() changes during a poll exactly when the returned event carries an ArmingStatus change; its prior is the value before the poll, which differs from the value after.", "quantifier": "every history and poll", "why_tests_cant": "all histories", "anchors": ["elkm1/src/state.rs:Panel::poll_next", "elkm1/src/state.rs:Change::ArmingStatus"]}
{"id": "C32", "title": "Every zone change is announced with the right prior", "statement": "zone_statuses() changes during a poll exactly when the returned event carries a ZoneChange; the change names the zone, its prior is the status before the poll, and no other zone changed.", "quantifier": "every history and poll", "why_tests_cant": "all histories", "anchors": ["elkm1/src/state.rs:Panel::interpret", "elkm1/src/state.rs:Change::ZoneChange"]}
{"id": "C33", "title": "Spurious fully-armed reports are hidden", "statement": "When a suspicious AS report arrives while none is pending, arming_status() does not change and no change is announced; if another AS report arrives before the deferred one takes effect, the suspicious value is never visible.", "quantifier": "every state and pair of reports, any other packets in between", "why_tests_cant": "all interleavings", "anchors": ["elkm1/src/state.rs:Panel::interpret_arming_status"]}
{"id": "C34", "title": "A held report takes effect after 5 seconds, not before", "statement": "A held report is applied only by a poll at least 5 s after it arrived, and is applied by the first poll at or after that time that finds no packet waiting, if no AS report came in between.", "quantifier": "every schedule of polls with non-decreasing time", "why_tests_cant": "all timer schedules", "anchors": ["elkm1/src/state.rs:Panel::poll_next", "elkm1/src/state.rs:SUSPICIOUS_TRANSITION_DELAY"]}
{"id": "C35", "title": "Accessors are safe after connect", "statement": "If connecting succeeds, then arming_status, zone_statuses, zone_name and area_names never panic, at any later time, whatever was received during and after initialisation.", "quantifier": "every initialisation transcript and later history", "why_tests_cant": "all histories", "anchors": ["elkm1/src/state.rs:Panel::arming_status", "elkm1/src/state.rs:Panel::zone_statuses", "elkm1/src/state.rs:Panel::with_connection"]}
{"id": "C36", "title": "Connecting learns the panel's names and states", "statement": "Against a panel that answers every request (possibly sending any unrelated packets in between), connecting succeeds, sends at most 250 requests, and afterwards every area, task and zone name equals the panel's name (blank where the panel's name starts with a space), and states equal those last reported.", "quantifier": "every panel configuration and every interleaving of unrelated packets", "why_tests_cant": "all configurations and interleavings", "anchors": ["elkm1/src/state.rs:Panel::with_connection", "elkm1/src/state.rs:Panel::send_sds", "elkm1/src/state.rs:Panel::init_req"]}
{"id": "C37", "title": "No input from the panel can panic the client during connect", "statement": "Whatever packets arrive during initialisation, connect returns Ok or Err or keeps waiting; it does not panic.", "quantifier": "every packet sequence during initialisation", "why_tests_cant": "all transcripts", "anchors": ["elkm1/src/state.rs:Panel::send_sds"]}
{"id": "C38", "title": "Names do not change after connect", "statement": "Nothing received or sent after initialisation changes zone_name or area_names.", "quantifier": "every history", "why_tests_cant": "all histories", "anchors": ["elkm1/src/state.rs:Panel::interpret"]}
{"id": "C39", "title": "At most one command is outstanding; completions are in order", "statement": "In any history the commands accepted by start_send are exactly the commands reported by events' completes, in the same order, followed by at most one still outstanding; each completing event's message is a reply to the command it completes; poll_ready reports ready exactly when none is outstanding.", "quantifier": "every history of the Sink and Stream sides", "why_tests_cant": "all interleavings", "anchors": ["elkm1/src/state.rs:Panel as Sink<Command>", "elkm1/src/state.rs:Panel::interpret", "elkm1/src/state.rs:Event::completes"]}
{"id": "C40", "title": "A caller that respects the Sink contract never panics", "statement": "If start_send is only called after poll_ready returned ready with no start_send since, no call on Panel panics; calling start_send while a command is outstanding always panics and is the only way to panic.", "quantifier": "every history", "why_tests_cant": "all interleavings", "anchors": ["elkm1/src/state.rs:Panel::start_send"]}
{"id": "C41", "title": "A task waiting to send is woken when the panel becomes ready", "statement": "If poll_ready returned Pending for a task after flushing, then the poll that receives the reply wakes the task that polled last.", "quantifier": "every history", "why_tests_cant": "lost wake-ups depend on schedules", "anchors": ["elkm1/src/state.rs:Panel::poll_ready", "elkm1/src/state.rs:Panel::interpret"]}
{"id": "C42", "title": "Bytes on the wire are the encoded commands, in order", "statement": "At any time the bytes handed to the socket followed by the bytes still buffered are exactly the concatenated encodings of the accepted commands.", "quantifier": "every history and every pattern of partial writes", "why_tests_cant": "all partial-write schedules", "anchors": ["elkm1/src/state.rs:Panel::start_send", "elkm1/src/tokio.rs:Connection as Sink<Packet>"]}
{"id": "C43", "title": "A completed flush means the command was written", "statement": "When Panel::poll_flush returns Ready(Ok), every accepted command has been handed to the socket completely. On a socket that goes on taking bytes a flush finishes without waiting for the reply, and flushing again does nothing.", "quantifier": "every history", "why_tests_cant": "needs a reply-looking message to overtake a partial write", "anchors": ["elkm1/src/state.rs:Panel::poll_flush"]}
{"id": "C44", "title": "Closing the sink shuts the connection down", "statement": "When poll_close returns Ready(Ok) the connection's write side has been shut down.", "quantifier": "every history", "why_tests_cant": "observable only at the peer; no test", "anchors": ["elkm1/src/tokio.rs:Connection::poll_close", "elkm1/src/state.rs:Panel::poll_close"]}
{"id": "C45", "title": "End of stream is reported faithfully", "statement": "When the peer closes, the Connection first yields every packet still buffered, then ends cleanly if nothing is left, and yields one error if an incomplete packet is left; a read error is passed on.", "quantifier": "every byte stream and chunking", "why_tests_cant": "all streams", "anchors": ["elkm1/src/tokio.rs:Connection::poll_next", "elkm1/src/tokio.rs:Codec::decode"]}
{"id": "C46", "title": "Non-message packets are inert", "statement": "Receiving an Invalid or RP packet, an unsupported command or an unparsable message changes nothing visible: statuses, names, pending report, outstanding command; the event has no change and completes nothing.", "quantifier": "every state and such packet", "why_tests_cant": "all states and packets", "anchors": ["elkm1/src/state.rs:Panel::interpret", "elkm1/src/msg.rs:Message::parse"]}
{"id": "C47", "title": "The bridge shows an alarm whenever an area is in alarm", "statement": "The Home Assistant state of an area is 'triggered' exactly when the area's alarm state is an actual alarm; otherwise it is 'pending', 'arming', or the name of the arming mode.", "quantifier": "every report and area", "why_tests_cant": "all reports", "anchors": ["elkm1-mqtt/src/main.rs:ha_area_state", "elkm1/src/msg.rs:AlarmState::is_firing"]}
{"id": "C48", "title": "Retained MQTT area topics always match the panel", "statement": "After start-up and after every handled event, the last retained value on each configured area's state topic is the Home Assistant state of that area in the panel's current arming status (area names being distinct).", "quantifier": "every configuration and history", "why_tests_cant": "all histories and map iteration orders", "anchors": ["elkm1-mqtt/src/main.rs:publish_area_states", "elkm1-mqtt/src/main.rs:inner"]}
{"id": "C49", "title": "Retained MQTT zone topics always match the panel", "statement": "After start-up and after every handled event, the last retained value on each configured zone's state topic is the mapped logical status of that zone.", "quantifier": "every configuration and history", "why_tests_cant": "all histories and map iteration orders", "anchors": ["elkm1-mqtt/src/main.rs:publish_zone_state", "elkm1-mqtt/src/main.rs:inner"]}
{"id": "C50", "title": "MQTT commands become exactly the intended arm request", "statement": "A publish on an area's command topic with payload DISARM, ARM_AWAY or ARM_HOME sends exactly one arm request with that area's number, the corresponding level and the configured code; any other payload or topic sends nothing.", "quantifier": "every configuration, topic and payload", "why_tests_cant": "all payloads and topics", "anchors": ["elkm1-mqtt/src/main.rs:handle_publish"]}
{"id": "C51", "title": "The bridge keeps serving", "statement": "No sequence of panel packets and MQTT commands can make the bridge stop processing (block forever or crash).", "quantifier": "every history", "why_tests_cant": "needs specific interleavings", "anchors": ["elkm1-mqtt/src/main.rs:handle_publish", "elkm1-mqtt/src/main.rs:inner", "elkm1/src/msg.rs:Serialize for ZoneStatusReport"]}
{"id": "C52", "title": "The bridge announces itself online only with valid states published", "statement": "'online' is published only after every configured area and zone state topic holds a valid value; a configuration with an out-of-range area, zone or code never goes online.", "quantifier": "every configuration", "why_tests_cant": "all configurations", "anchors": ["elkm1-mqtt/src/main.rs:inner"]}
{"id": "C53", "title": "The CLI read command accounts for every byte", "statement": "elkm1-cli read prints packets whose encodings, followed by the reported incomplete data, are exactly the file's contents.", "quantifier": "every file", "why_tests_cant": "all files", "anchors": ["elkm1-cli/src/main.rs:read"]}
{"id": "C54", "title": "The CLI watch command reports exactly the changed areas", "statement": "On an arming-status change, watch logs an area exactly when its arming status, up state or alarm state differs before and after.", "quantifier": "every history", "why_tests_cant": "all histories", "anchors": ["elkm1-cli/src/main.rs:watch"]}
{"id": "C55", "title": "Deserialised values obey their types' ranges", "statement": "A Zone, Area, Keypad, Task, ArmCode, TextDescription, ZoneStatus or AsciiPacket obtained through serde is one that the checked constructors could have built.", "quantifier": "every serialised value", "why_tests_cant": "all JSON values", "anchors": ["elkm1/src/msg.rs:limited_u8", "elkm1/src/msg.rs:ArmCode", "elkm1/src/msg.rs:TextDescription", "elkm1/src/msg.rs:ZoneStatus", "elkm1/src/pkt.rs:AsciiPacket"]}
{"id": "C56", "title": "Serialised events deserialise to themselves", "statement": "For every event the Panel can emit, serialising and deserialising gives back the same event.", "quantifier": "every event", "why_tests_cant": "all messages and packets", "anchors": ["elkm1/src/state.rs:Event", "elkm1/src/msg.rs:Serialize for ZoneStatusReport", "elkm1/src/msg.rs:Serialize for DateTime"]}
{"id": "C57", "title": "The bridge announces to Home Assistant the topics it uses", "statement": "With discovery configured, every area and zone has a retained config message under its own unique id whose state, command and availability topics are exactly the ones the bridge publishes to and subscribes to.", "quantifier": "every configuration and history", "why_tests_cant": "all names, prefixes and histories", "anchors": ["elkm1-mqtt/src/main.rs:publish_ha_discovery", "elkm1-mqtt/src/main.rs:inner"]}
{"id": "C58", "title": "Every panel event is published once, in order, readable", "statement": "While the bridge is up, the event topic receives exactly the events the panel stream yields for the bytes received, in order, once each, not retained, and each payload deserialises to the event.", "quantifier": "every history", "why_tests_cant": "all interleavings of network, MQTT and write progress", "anchors": ["elkm1-mqtt/src/main.rs:inner"]}
{"id": "C59", "title": "The bridge does not publish the arm code", "statement": "No message published by the bridge contains the configured arm code.", "quantifier": "every configuration and history", "why_tests_cant": "all histories; secrecy is a property of pairs of runs", "anchors": ["elkm1-mqtt/src/main.rs:inner", "elkm1/src/state.rs:Event"]}
{"id": "C60", "title": "No input makes a fuzz target fail", "statement": "For every byte string, running any of the three fuzz targets (pkt: build, encode and decode a packet; depkt: decode, parse and re-encode a stream; msg: make a message, encode and parse it) neither panics nor violates one of its assertions.", "quantifier": "all byte strings given to each of the three targets", "why_tests_cant": "fuzzing samples the inputs; it can only show that a target fails", "anchors": ["fuzz/fuzz_targets/pkt.rs", "fuzz/fuzz_targets/depkt.rs", "fuzz/fuzz_targets/msg.rs", "elkm1/src/msg.rs:Arbitrary"]}
{"id": "C61", "title": "The message fuzz target can try every message", "statement": "Every message whose fields are in their documented ranges is made by the Arbitrary implementation from some input, so that the msg fuzz target checks it; and only such messages are made.", "quantifier": "all well-formed messages; all byte strings", "why_tests_cant": "which messages a generator can never make does not show in any number of runs", "anchors": ["elkm1/src/msg.rs:impl Arbitrary for ArmCode", "elkm1/src/msg.rs:impl Arbitrary for DateTime", "elkm1/src/msg.rs:impl Arbitrary for ZoneStatus", "elkm1/src/msg.rs:impl Arbitrary for TextDescription", "fuzz/fuzz_targets/msg.rs"]}
{"id": "C62", "title": "Writing a value to the log never panics", "statement": "Formatting with Debug never panics: not any event a connected panel yields, not the panel's state, not a command, and not any message, whether it was parsed, built or deserialised.", "quantifier": "all messages; all reachable panels, all polls and the events they yield; all commands", "why_tests_cant": "Debug of ArmCode, TextDescription and ZoneStatus contain expect, unwrap and unreachable!, safe only if every way to make such a value respects an invariant; tests format a few values", "anchors": ["elkm1/src/msg.rs:impl Debug for ArmCode", "elkm1/src/msg.rs:impl Debug for ZoneStatus", "elkm1/src/msg.rs:impl Debug for TextDescription", "elkm1/src/state.rs:Event", "elkm1-mqtt/src/main.rs:448", "elkm1-cli/src/main.rs:24"]}
{"id": "C63", "title": "The log identifies what happened", "statement": "Two events that panels yield are written (Debug) in the same way only if they are equal in every field, and likewise two received messages: nothing is lost in the log. Two states of panels are written in the same way only if their arming status, zone statuses and names agree, except for names that start with a space (C64). Displaying an area, keypad, task or zone number writes its decimal digits.", "quantifier": "all pairs of events yielded in any executions; all pairs of well-formed messages; all pairs of reachable states; all numbers below 256", "why_tests_cant": "it compares every pair of values; several hand-written Debug implementations drop trailing spaces or unconfigured zones", "anchors": ["elkm1/src/msg.rs:impl Debug", "elkm1/src/pkt.rs:impl Debug", "elkm1/src/state.rs:Event"]}
{"id": "C64", "title": "The log lists exactly the names and statuses that are set", "statement": "Debug of a list of names lists, in order and numbered from 1, exactly the names that are not empty, without their padding; Debug of a zone status report lists exactly the configured zones with the words for their status.", "quantifier": "all lists of names; all zone status reports", "why_tests_cant": "the claim covers every list of 16-character texts; TextDescription::is_empty looks only at the first character", "anchors": ["elkm1/src/msg.rs:impl Debug for TextDescriptions", "elkm1/src/msg.rs:TextDescription::is_empty", "elkm1/src/msg.rs:impl Debug for ZoneStatusReport"]}
{"id": "C65", "title": "The JSON of an event names things like the log, in camelCase", "statement": "The JSON form of every message and event has the same structure as its Debug form: the same fields in the same order and the same variants, each under the camelCase form of its Rust name, with the same numbers.", "quantifier": "all messages; all events of all reachable panels", "why_tests_cant": "the naming is set by one attribute per type; a test that checks one message says nothing about the types whose attribute was forgotten", "anchors": ["elkm1/src/msg.rs:derive(Serialize) and serde(rename_all) on the message types", "elkm1/src/msg.rs:RtcData", "elkm1/src/state.rs:Event"]}
{"id": "C66", "title": "The bridge is configured as its file says", "statement": "A configuration file is accepted exactly if it has the documented members with the documented types (optional ones may be left out, or be null where there is no default; unknown members are ignored; members of areas and zones are numbered 0..255 without leading zeros, the last of several with the same number counting), and the bridge then uses exactly these values: broker, port (1883 by default), credentials, topic prefix (elkm1/<serial number> by default), panel address, areas and zones; the last will is a retained 'offline', at least once. A user name without a password or vice versa stops it.", "quantifier": "all JSON values", "why_tests_cant": "there are infinitely many files: any order, any unknown members, any duplicates", "anchors": ["elkm1-mqtt/src/main.rs:Cfg", "elkm1-mqtt/src/main.rs:MqttCfg", "elkm1-mqtt/src/main.rs:ElkCfg", "elkm1-mqtt/src/main.rs:main"]}
{"id": "C67", "title": "A bad configuration is rejected before anything is published", "statement": "If the configuration has a number no panel has, a code of more than six digits, or a name the MQTT client does not accept, the bridge ends without having published anything.", "quantifier": "all configurations; all MQTT clients; all executions of the bridge", "why_tests_cant": "it concerns every invalid configuration and everything the bridge might do before it notices", "anchors": ["elkm1-mqtt/src/main.rs:inner", "elkm1-mqtt/src/main.rs:publish_ha_discovery", "elkm1-mqtt/src/main.rs:publish_area_states"]}
{"id": "C68", "title": "Every topic has one purpose", "statement": "Each area's state and commands, each zone's state, availability, events and each announcement have a topic of their own; the bridge publishes to no other topics, retains everything but events, and subscribes to exactly the command topics; everything is published with quality of service 'at least once', and commands are subscribed to with 'at most once'.", "quantifier": "all configurations the bridge accepts; all executions", "why_tests_cant": "names and prefixes are arbitrary texts; collisions depend on their combination", "anchors": ["elkm1-mqtt/src/main.rs:publish_area_states", "elkm1-mqtt/src/main.rs:publish_zone_state", "elkm1-mqtt/src/main.rs:publish_ha_discovery", "elkm1-mqtt/src/main.rs:inner"]}
{"id": "C69", "title": "The availability topic tells whether the bridge works", "statement": "The retained value of the availability topic is \"online\" from the end of start-up for as long as the bridge runs, and \"offline\", by its last will, once it has ended for whatever reason; while it is \"online\" the bridge serves events and commands.", "quantifier": "all configurations; all executions", "why_tests_cant": "the bridge can end or block at any point of any execution", "anchors": ["elkm1-mqtt/src/main.rs:main", "elkm1-mqtt/src/main.rs:inner", "elkm1-mqtt/src/main.rs:handle_publish"]}
{"id": "C70", "title": "Line errors in RP frames are detected", "statement": "If a frame of an RP packet is damaged on its way, by one or two wrong bits, any odd number of wrong bits, or a burst of at most 16 bits, the receiver reports an invalid packet and never another packet.", "quantifier": "all RP packets up to the length limit; all error patterns of these kinds; all following bytes", "why_tests_cant": "a frame has up to 8160 bits: 33 million pairs of positions per packet, and 2^8192 packets", "anchors": ["elkm1/src/pkt.rs:RpPacket", "elkm1/src/pkt.rs:Packet::decode"]}
{"id": "C71", "title": "A held-back arming report takes effect after five seconds", "statement": "If the panel's suspicious \"fully armed\" report is followed by nothing else about arming, a caller that keeps polling sees it take effect once five seconds have passed.", "quantifier": "all reachable panels; all histories of calls and arrivals; all times of polls", "why_tests_cant": "depends on the timing of unrelated packets and on when the connection ends", "anchors": ["elkm1/src/state.rs:Panel::poll_next", "elkm1/src/state.rs:Panel::interpret_arming_status"]}
{"id": "C72", "title": "A task waiting to send learns when it can go on or that it never will", "statement": "A task that poll_ready told to wait is woken when the command before it is completed, and also when the connection ends, so that it does not wait for ever.", "quantifier": "all reachable panels; all histories", "why_tests_cant": "an endless wait cannot be observed by a finite test", "anchors": ["elkm1/src/state.rs:Panel::poll_ready", "elkm1/src/state.rs:Panel::poll_next"]}
{"id": "C73", "title": "Line errors in ASCII frames are detected", "statement": "When the body or the checksum of an ASCII frame is corrupted on the line (its length field and CRLF intact), Packet::decode returns an invalid packet holding exactly the received bytes, not a packet. Exactly when that is so: the received frame is accepted iff its body is printable, its checksum is two uppercase hexadigits, and body sum plus checksum changed by a multiple of 256. So two wrong bits in the body are caught unless they are the same bit of two characters, set in one and cleared in the other; wrong bits that were all set (or all cleared) are caught if the sum changes by less than 256. False in general: the characters of the body in any other order are accepted, and exchanging two neighbouring characters of an arm request makes a valid request for another level in another area.", "quantifier": "All ASCII packets, all received bodies of the same length and checksum characters, all bytes that follow, all pairs of wrong bits, all permutations, all arm requests whose level and area digits are both within 1..8", "why_tests_cant": "Each frame has astronomically many corruptions; which ones pass is a statement about all of them", "anchors": ["elkm1/src/pkt.rs:AsciiPacket::decode", "elkm1/src/pkt.rs:check_printable", "elkm1/src/msg.rs:ArmRequest"]}
{"id": "C74", "title": "A slow broker delays the bridge but loses nothing", "statement": "The bridge hands its publishes and subscriptions to the MQTT event loop through a channel with ten places, waiting when it is full. At any time the requests the broker has got, those in the channel (at most ten) and those still to be put there are, in this order, exactly what the bridge would have asked for if it never had to wait, on the same bytes and commands received. The two sides never wait for each other: polled in turn they deliver everything, after which the broker retains what the panel reports. While the channel is full and the broker takes nothing, the bridge stands still. False when the process ends: what is in the channel then is lost, and as the bridge ends when the panel closes the connection, the last events and states before that may never reach the broker.", "quantifier": "All configurations, clients, interleavings of arrivals, polls of the two sides and takes by the broker; all continuations after the end", "why_tests_cant": "Interleavings of two loops with a bounded channel; the loss needs the connection to end within the time it takes to send", "anchors": ["elkm1-mqtt/src/main.rs:publish_area_states", "elkm1-mqtt/src/main.rs:run_eventloop", "elkm1-mqtt/src/main.rs:main", "elkm1-mqtt/src/main.rs:inner"]}
{"id": "C75", "title": "What a panel reports does not depend on what is sent to it", "statement": "Whatever calls are made on the sending side (poll_ready, start_send, poll_flush, poll_close) and whatever the socket answers to writes, the packets, messages, changes, errors and ends that polling yields, and the state the accessors show, are those of the same history without these calls; only which command an event completes can differ. Conversely the bytes handed to the socket or waiting for it are determined by the accepted commands alone.", "quantifier": "all panels, all pairs of histories with the same receiving side (or the same commands)", "why_tests_cant": "it compares pairs of executions over all interleavings; a test sees one", "anchors": ["elkm1/src/state.rs:poll_next", "elkm1/src/state.rs:interpret", "elkm1/src/state.rs:impl Sink"]}
{"id": "C76", "title": "Only five-second intervals of the clock matter", "statement": "If the times of the polls are changed so that any two polls are at least five seconds apart in both histories or in neither (and the deadline of a report already held is treated alike), every answer is the same, including wakers and completions, and so is the final state but for the deadline itself. In particular moving the zero of the clock changes nothing. Nothing is assumed about the clock being monotonic.", "quantifier": "all panels, histories and pairs of clocks", "why_tests_cant": "it compares executions under all pairs of clocks", "anchors": ["elkm1/src/state.rs:interpret_arming_status", "elkm1/src/state.rs:poll_next"]}
{"id": "C77", "title": "A task waiting to receive is woken when there is something to receive", "statement": "If poll_next told task t to wait, nobody called poll_next since, and t has not been woken since, then poll_next would tell it to wait again: everything that has arrived has been reported, the connection is not closed, and a held report has not reached its five seconds. Whatever arrives in that situation wakes t, and the passing of time wakes t exactly when it reaches the deadline of the held report. Calls on the sending side by any task, room in the socket and broken writes in between make no difference.", "quantifier": "all reachable panels, all registrations left by earlier calls, all histories of calls by any tasks, arrivals, socket capacities and clock advances", "why_tests_cant": "a lost wake-up needs an interleaving of a poll, an arrival and a timer; tests poll in a loop and never depend on being woken", "anchors": ["elkm1/src/state.rs:poll_next", "elkm1/src/tokio.rs:impl Stream for Connection"]}
{"id": "C78", "title": "A task waiting to send is woken when it can go on", "statement": "If poll_ready, poll_flush or poll_close told task t to wait, nobody polled the sending side since, and t has not been woken since, then the same call would tell it to wait again.", "quantifier": "all reachable panels, all registrations, all histories of other calls, arrivals, socket capacities and clock advances", "why_tests_cant": "the wake-up is lost only when a reply overtakes the unwritten command; no test has a socket that is full", "anchors": ["elkm1/src/state.rs:poll_ready", "elkm1/src/state.rs:poll_flush", "elkm1/src/state.rs:poll_close", "elkm1/src/state.rs:interpret"]}
{"id": "C79", "title": "What is published as JSON is JSON text that means exactly the event or announcement", "statement": "Every event and every Home Assistant announcement that the bridge publishes is a text of the JSON grammar (RFC 8259), it denotes one JSON value only, and that value is the serialised event or announcement. The texts published for the panel's events, in order, each denote only values that deserialise to that event.", "quantifier": "all configuration files that are accepted, all runs of the bridge, all panel traffic", "why_tests_cant": "the repository never looks at published text; quoting mistakes show only for names with quotes, control characters or non-ASCII text", "anchors": ["elkm1-mqtt/src/main.rs:publish_ha_discovery", "elkm1-mqtt/src/main.rs:inner", "elkm1-mqtt/src/main.rs:main"]}
{"id": "C80", "title": "The configuration file is accepted exactly if its text denotes a configuration", "statement": "A text is read as a JSON value exactly if the grammar of RFC 8259 derives it for that value; a text has one meaning at most; any other text is an error, never a crash inside the reader. The bridge starts with a configuration exactly if the file's text denotes a JSON value that describes it.", "quantifier": "all byte strings, valid UTF-8 or not", "why_tests_cant": "all byte strings: no test of the repository reads a configuration file", "anchors": ["elkm1-mqtt/src/main.rs:main"]}
{"id": "C81", "title": "An invalid packet carries the one text that explains it", "statement": "When the decoder reports bytes as an invalid packet, the text it gives is the only one of nine possible texts that is true of those bytes. The checksum or CRC a text names is the right one: put in place of the one received, the frame decodes as a packet, up to unprintable characters for ASCII frames. Packets that cannot be built are refused with the texts that describe them.", "quantifier": "all byte streams, however they are cut; all packet bodies", "why_tests_cant": "comparing invalid packets ignores the reason, and no test looks at one; the named checksum and index must be right for every frame", "anchors": ["elkm1/src/pkt.rs:Packet::decode", "elkm1/src/pkt.rs:AsciiPacket::decode", "elkm1/src/pkt.rs:RpPacket::decode", "elkm1/src/pkt.rs:AsciiPacket::try_from", "elkm1/src/pkt.rs:RpPacket::try_from"]}
{"id": "C82", "title": "A malformed message is refused with the text of the first requirement it violates", "statement": "For every message type there is an ordered list of requirements on its data, each with a text. Parsing fails exactly if some requirement is violated, and then with the text of the first one. The same holds of dates in ISO 8601. A text about lengths is true: it gives the number of data bytes received and a number that is at least required. The numbers, characters and fields shown in the texts are those of the message.", "quantifier": "all packet bodies; all ASCII strings given as dates", "why_tests_cant": "the repository checks no error text; the order in which requirements are checked matters only for messages violating several", "anchors": ["elkm1/src/msg.rs:Message::parse_ascii", "elkm1/src/msg.rs:parse_u8_dec", "elkm1/src/msg.rs:limited_u8", "elkm1/src/msg.rs:DateTime::from_iso_8601", "elkm1/src/msg.rs:StringDescriptionResponse::from_ascii_data"]}
{"id": "C83", "title": "What the broker holds is given by the bytes the panel has sent", "statement": "While the bridge runs, the packets in the bytes the panel has sent since the connection was made are, in order: those read while connecting, those of the events published, and those not taken up yet; of the last there are none once polling the panel has nothing to give. The messages published without retain flag are exactly those events. Each zone's state topic shows the zone's status as those packets leave it. Each area's state topic shows the last arming report among them or, while that report turns a disarmed area fully armed, the report just before it.", "quantifier": "all clients, configurations with distinct names, and all interleavings of network data, MQTT messages and polls with the bridge still running", "why_tests_cant": "relates two interfaces of the program over histories of any length; no test of the repository runs the bridge", "anchors": ["elkm1-mqtt/src/main.rs:main", "elkm1-mqtt/src/main.rs:publish_area_states", "elkm1-mqtt/src/main.rs:publish_zone_state", "elkm1/src/state.rs:Panel::poll_next", "elkm1/src/state.rs:Panel::connect", "elkm1/src/pkt.rs:Packet::decode"]}
{"id": "C84", "title": "The characters logged and printed identify what they stand for", "statement": "The Debug text of a message, on one line or indented, followed by the end of the line and anything else, is that of no other message. The same holds for the text of an event, and for that of a panel's state up to names that begin with a space. What `elkm1-cli read` prints for a file is printed for no other file.", "quantifier": "all layouts, all well-formed messages, all events and states of connected panels, all files; for packets, all ways to dump bytes that begin with the length and tell the bytes", "why_tests_cant": "an injectivity claim over pairs of inputs of any size, including texts with quotes and delimiters chosen by the panel; no test prints anything", "anchors": ["elkm1-cli/src/main.rs:read", "elkm1/src/msg.rs:Message", "elkm1/src/pkt.rs:Packet", "elkm1/src/pkt.rs:InvalidPacket", "elkm1/src/state.rs:Event", "elkm1/src/state.rs:PanelState"]}
{"id": "C85", "title": "Why connecting fails, and that it ends when the connection does", "statement": "While connecting, an error is returned in one step and for one of these reasons, which its text tells: the socket refused a write (that error), or took no bytes (\"failed to write frame to transport\"); a read error arrived, the first, after some packets (that error); the panel closed the connection inside a packet (\"bytes remaining on stream\"), or between packets, in which case the text is \"EOF while expecting reply to \" and the last request sent, all of whose bytes are out. Conversely, once the connection is closed or a read error has arrived, connecting ends after at most 3n+6 steps with a socket that takes bytes, n being the number of packets and errors received. If the panel closes the connection without having reported its arming state, the error is the one that names the arming status request.", "quantifier": "all arrivals of bytes and read errors in any chunks, with or without a close, and all interleavings with the client's steps and write outcomes", "why_tests_cant": "an early end of the connection can come at any byte, in any of 250 awaited replies, before or after any write; the tests have no connection that ends", "anchors": ["elkm1/src/state.rs:Panel::with_connection", "elkm1/src/state.rs:Panel::init_req", "elkm1/src/state.rs:Panel::connect", "elkm1/src/tokio.rs:Connection::poll_next", "elkm1/src/tokio.rs:Connection::poll_flush"]}
{"id": "C86", "title": "The log records all traffic with the panel", "statement": "At any moment, while connecting and in a session: the \"received packet\" lines show, one each and in order, exactly the packets the client has taken from the byte stream; the bytes written so far are the frames of the packets in the \"sending packet\" lines, in order; and the \"sending message\" lines show exactly the commands accepted, in order. No line panics. All of the library's lines are at DEBUG or TRACE but two warnings about arming.", "quantifier": "all arrivals of bytes, closes and read errors, all interleavings with the client's steps, polls, sends and write outcomes", "why_tests_cant": "a statement about the log as a whole against the whole byte stream in both directions, over all executions; no test looks at the log", "anchors": ["elkm1/src/tokio.rs:Connection::poll_next", "elkm1/src/tokio.rs:Connection::start_send", "elkm1/src/state.rs:Panel::start_send", "elkm1/src/state.rs:Panel::init_req"]}
{"id": "C87", "title": "The log tells how each arming report was treated", "statement": "A poll logs exactly this: nothing if it yields no event; one \"received packet\" line for a packet, followed by \"delaying ...\" if it is a suspicious report that is put on hold, or by \"next arming report ... is also suspicious; applying anyway\" if one is on hold already; or \"deferred arming status taking effect\" alone when the report on hold takes effect. The reports shown as prior, pending and new are the reported status, the one on hold and the new one. Over a session these lines alternate: a report that is said to take effect or to be replaced was announced as delayed by the last line about arming before, with the same prior status; and the report on hold is always the last one announced.", "quantifier": "all connected panels, all histories of calls, arrivals and times", "why_tests_cant": "relates log lines arbitrarily far apart in time, and depends on the five-second timer and on the order of arrivals; the tests do not look at the log", "anchors": ["elkm1/src/state.rs:Panel::interpret_arming_status", "elkm1/src/state.rs:Panel::poll_next", "elkm1/src/state.rs:Panel::interpret", "elkm1/src/tokio.rs:Connection::poll_next"]}
{"id": "C88", "title": "The bridge's log shows every event and every MQTT message", "statement": "While the bridge runs, its log is that of connecting, \"panel initialized\" once, and then: one \"panel event\" line for each event of the panel in order, one \"received mqtt publish\" line for each message taken from MQTT in order, and the lines of the library as in C86 and C87. A message logs, after that line, exactly: \"ignoring publish to unknown topic\" if its topic is no area's command topic; else \"matched to known area\" with the name of that area, followed by \"ignoring unknown level\" if the payload is text but not a level. Logging never panics.", "quantifier": "all configurations, all MQTT clients, all inputs from the network and MQTT in any order; all ways rumqttc and bytes show a message", "why_tests_cant": "quantifies over whole runs of the bridge, with a panel and a broker interleaved arbitrarily; the bridge has no tests", "anchors": ["elkm1-mqtt/src/main.rs:handle_publish", "elkm1-mqtt/src/main.rs:inner", "elkm1/src/state.rs:Panel::poll_next"]}
{"id": "C89", "title": "The arm code does not show up in the log", "statement": "Two runs of the bridge that differ only in the configured code log the same lines. False of the code: an arm command that completes is shown in the \"panel event\" line, at INFO, with the code. Proved: at every level, the lines are the same one by one, except for the code itself in three kinds of lines: \"sending message\" and \"sending packet\" for an arm command (DEBUG and TRACE), and \"panel event\" for the event that completes one (INFO). So of the lines shown by default only those of completing events depend on the code.", "quantifier": "all configurations, all pairs of six-digit codes, all inputs, all ways rumqttc and bytes show a message", "why_tests_cant": "a non-interference property: it compares all pairs of runs that differ in a secret; no test can show that nothing else depends on it", "anchors": ["elkm1-mqtt/src/main.rs:inner", "elkm1-mqtt/src/main.rs:handle_publish", "elkm1/src/state.rs:Panel::start_send", "elkm1/src/state.rs:Panel::poll_next"]}
{"id": "C90", "title": "The log of connecting tells request by request what was asked and what came", "statement": "At every moment the log of connecting reads: one request after the other, the first being for the arming status; each is announced (\"sending initialization message\"), then its packet is shown as sent, then each packet that came is shown; one that is a message is followed by at most one line about arming, if it is an arming report, and by \"received unrelated message while awaiting reply\", or by \"received reply\" if and only if it answers the request; then the next request is announced. The requests it tells of are exactly those whose frames were written. When connecting has succeeded the log ends with a reply (or a panic followed it); when it has failed, in the middle of a request.", "quantifier": "all arrivals of bytes, closes and read errors, and all interleavings with the client's steps and write outcomes", "why_tests_cant": "up to 250 requests with arbitrary traffic in between; no test looks at the log of a connection", "anchors": ["elkm1/src/state.rs:Panel::init_req", "elkm1/src/state.rs:Panel::with_connection", "elkm1/src/state.rs:Panel::send_sds", "elkm1/src/state.rs:Panel::interpret"]}
{"id": "C91", "title": "What is buffered is bounded", "statement": "A panel that is sent commands according to Sink's contract holds a bounded number of bytes that are not yet written to the socket, and of bytes that were received but are not yet returned as events. False of the code: the panel answers poll_ready with Ready without asking the connection, and flushes nothing once a command is answered, so that with replies that come before the flush the unwritten bytes grow without bound, though the caller flushes after each command, the socket takes everything offered, and every call answers Ready(Ok). Proved: a panel holds at most 17 unwritten bytes for the command outstanding and 17 for each command that was answered before it was written; while connecting at most 17, and none while a reply is awaited; the bridge never more than 17, and none except while it is in send. When a poll finds nothing to return, at most 1025 received bytes are kept, except after the frames of C07.", "quantifier": "all histories of calls and arrivals, all outcomes of writes; all configurations and inputs of the bridge", "why_tests_cant": "a bound over histories of any length; growth without bound cannot be seen in a finite test", "anchors": ["elkm1/src/state.rs:Panel::poll_ready", "elkm1/src/state.rs:Panel::poll_flush", "elkm1/src/state.rs:Panel::start_send", "elkm1/src/tokio.rs:Connection::poll_ready", "elkm1-mqtt/src/main.rs:inner"]}
{"id": "C92", "title": "Two connected ends receive what was sent", "statement": "Two Connections at the two ends of a line: whatever calls are made on both, with any outcomes of writes, and however the bytes taken by one socket are delayed and cut into chunks on their way to the other, nothing panics, and each end receives exactly the packets given to the other, from the first one on, in order, each once and unchanged. No error is returned before the other end is dropped. If everything was written before that, the stream ends without error after the last packet, else the packets written in full are received and a part of a packet gives one error, then the end. As long as neither end is dropped, one flush, one transfer and some polls are enough to receive all that was sent.", "quantifier": "all histories of calls on both ends, all valid packets, all outcomes of writes, all ways to cut up and delay the bytes", "why_tests_cant": "the interleavings of two ends, partial writes and partial reads; the test sends one packet each way over one socket", "anchors": ["elkm1/src/tokio.rs:socketpair", "elkm1/src/tokio.rs:Connection::poll_next", "elkm1/src/tokio.rs:Connection::start_send", "elkm1/src/tokio.rs:Connection::poll_flush", "elkm1/src/tokio.rs:Connection::poll_close", "elkm1/src/pkt.rs:decode", "elkm1/src/pkt.rs:encode"]}
{"id": "C93", "title": "Commands given to a panel that answers are all completed", "statement": "A caller sends commands, those it starts with and those it is given at any time later, one after the other (poll_ready, start_send, poll_flush, as SinkExt::send) while it goes on reading events; the panel answers the commands it has received in full, in order, and sends anything else it likes in between; the network takes and delivers bytes in pieces of any size. Nothing fails or panics, and commands are reported complete in the order they were given, each once: those completed, the one outstanding if any, and those still to send are always those given so far. If both tasks keep being run with a socket that takes at least a byte, commands received are eventually answered and bytes sent eventually delivered, then every command given is eventually reported complete, and if no more are given from some time on, in the end nothing is outstanding or left to send. If the panel sends nothing of its own accord that looks like an answer, a command reported complete has been received by the panel in full, with all before it.", "quantifier": "all commands and times at which they are given, all interleavings of the two tasks, panel and network, all packets the panel sends unasked, all partial writes and deliveries", "why_tests_cant": "liveness over infinite fair executions of caller, panel and network; a test sees one schedule", "anchors": ["elkm1/src/state.rs:Panel::poll_ready", "elkm1/src/state.rs:Panel::start_send", "elkm1/src/state.rs:Panel::poll_flush", "elkm1/src/state.rs:Panel::poll_next", "elkm1/src/state.rs:Panel::interpret", "elkm1/src/msg.rs:is_response_to", "elkm1/src/tokio.rs:Connection::poll_next"]}
{"id": "C94", "title": "The whole log of the CLI watch command", "statement": "At all levels, watch logs the lines of connecting, \"tracking changes\" once connected, and then event by event the library's lines (C87), one DEBUG \"received packet\" line showing the event (also for an event without a packet, when a report on hold takes effect), and one INFO line for each zone or area that changed (C54), which is that of no other change. Logging never panics; nothing is logged when watch ends or fails. Shown by default are the changes, \"tracking changes\" and the library's two warnings.", "quantifier": "all arrivals, timings and interleavings, while connecting and after", "why_tests_cant": "a test reads the lines of some runs; that no other line appears and none is missing holds for all runs", "anchors": ["elkm1-cli/src/main.rs:watch", "elkm1/src/state.rs:Panel::poll_next", "elkm1/src/state.rs:Panel::interpret", "elkm1/src/tokio.rs:Connection::poll_next"]}
{"id": "C95", "title": "Connecting by a task that is only run when woken", "statement": "Panel::connect loses no wake-up: at any time, if its task is not due to run, it has used up all that has arrived and awaits a reply, or there is no room in the socket for its request; running it would change nothing, and any arrival, or room in the socket or the socket's failure, makes it due. So an executor that runs it only when woken gets exactly as far as one that runs it at every opportunity. With such an executor connecting succeeds and the panel's names are known, if requests are answered, bytes delivered and there is room in the socket from time to time; and it comes to an end after the connection has ended or a read has failed.", "quantifier": "all arrivals, amounts of room, timings, spurious wake-ups and interleavings; all fair infinite executions", "why_tests_cant": "a lost wake-up hangs only in particular interleavings of arrivals and polls; a test with a real runtime sees few of them, and cannot tell slow from stuck", "anchors": ["elkm1/src/state.rs:Panel::init_req", "elkm1/src/state.rs:Panel::send_sds", "elkm1/src/state.rs:Panel::with_connection", "elkm1/src/tokio.rs:Connection::poll_next", "elkm1/src/tokio.rs:Connection::poll_flush"]}
{"id": "C96", "title": "When packets, names and messages are equal", "statement": "Packets are equal exactly if they are of the same kind and have the same bytes, an equivalence; equal packets are framed alike and parse alike. Packets that were decoded are equal exactly if their framed bytes are the same, and then they are the same in all respects, except that two RP packets cut short at a DLE may have different reasons, when the bytes that follow differ. Names are equal exactly if they are shown alike. Messages are equal exactly if they are the same; messages that can be sent, exactly if equal packets are sent for them.", "quantifier": "all packets; all byte streams they are decoded from; all 16-byte printable names; all messages", "why_tests_cant": "the comparison ignores a field; that this field is nearly always determined by the others needs all streams", "anchors": ["elkm1/src/pkt.rs:InvalidPacket::eq", "elkm1/src/pkt.rs:Packet", "elkm1/src/msg.rs:TextDescription::eq", "elkm1/src/msg.rs:Message"]}
{"id": "C97", "title": "Sending and reading by tasks that are only run when woken", "statement": "A caller sends commands while it reads events, as in C93, in two tasks or two halves of one, run by an executor only when woken (or for no reason). At any time, if the reading task is not due to run, everything that has arrived has been reported and running it would change nothing; if the sending task is not due, either there is no room in the socket for bytes still to be written, or running it would change nothing: it has finished or awaits a reply. Bytes arriving and a held report's five seconds passing make the reading task due; room in the socket while bytes are waiting, and the completion of a command that is written, make the sending task due. So if tasks that are due are eventually run, there is room in the socket from time to time, commands received are answered and bytes delivered, then every command given, at the start or later, is eventually reported complete, in order.", "quantifier": "all commands and times at which they are given, task names, rooms, wakers left over; all interleavings of tasks, executor, clock, panel and network", "why_tests_cant": "a wake-up is lost only in certain interleavings, and a test run by an executor that polls eagerly does not notice", "anchors": ["elkm1/src/state.rs:poll_next", "elkm1/src/state.rs:poll_ready", "elkm1/src/state.rs:poll_flush", "elkm1/src/state.rs:start_send", "elkm1/src/state.rs:interpret"]}
{"id": "C98", "title": "The bridge serves MQTT clients that wait their turn", "statement": "The bridge is in its loop with no command under way, and what is on its way from the panel are whole packets. From then on any publishes arrive, but one that asks for a command only once all commands asked for before were reported complete, and none on a command topic that is not UTF-8; the panel answers commands it has received in full and sends any valid packets of its own accord, but no zone status report; the network delivers in order, in any pieces; the bridge's task runs in any interleaving. Then the bridge neither stops nor gets stuck: it stays in its loop, and while it waits to send a command no other is under way. Commands are completed in the order asked for, each once; every event Panel yields is published on the event topic, in order, in a form it can be read back from, and nothing else unretained is. A command that was completed has been received by the panel in full, unless the panel sends of its own accord what looks like an answer. If the task keeps running, the panel answers and the network delivers, every command asked for is eventually completed.", "quantifier": "all configurations the bridge starts with (distinct area names), states of the bridge, publishes, panel packets, interleavings and ways the stream is cut; all fair executions", "why_tests_cant": "the properties are about unbounded interleavings of bridge, broker, panel and network, and about eventual completion", "anchors": ["elkm1-mqtt/src/main.rs:inner", "elkm1-mqtt/src/main.rs:handle_publish", "elkm1/src/state.rs:poll_next", "elkm1/src/state.rs:poll_ready", "elkm1/src/state.rs:interpret"]}
{"id": "C99", "title": "The bridge from its start", "statement": "The bridge is started with a configuration in range, with distinct area names, whose topics the MQTT client accepts. It connects to a panel that answers the requests it has received in full, in order, any names truthfully, and that may send any valid packets of its own accord but no zone status report, and no name while the bridge still connects; the network delivers in order, in any pieces; publishes arrive at any time as in C98, also before the bridge is connected; the bridge's task runs in any interleaving. Then the program never stops: it is connecting, or in its loop and has published that it is online. What it writes to the panel are its requests for states and names, each at most once and in order, and then the commands asked for, each once and in order. Commands are completed in the order asked for, also those asked for while it was connecting; every event Panel yields is published on the event topic, in order, in a form it can be read back from. If the task keeps running, the panel answers and the network delivers, then from some time on the bridge is in its loop and online, and every command asked for is completed.", "quantifier": "all such configurations, panels' names and states, publishes, panel packets, interleavings and ways the stream is cut; all fair executions from the start of the program", "why_tests_cant": "the property is about the whole program over unbounded interleavings of bridge, broker, panel and network, and about eventual completion", "anchors": ["elkm1-mqtt/src/main.rs:inner", "elkm1-mqtt/src/main.rs:handle_publish", "elkm1/src/state.rs:connect", "elkm1/src/state.rs:send_sds", "elkm1/src/state.rs:init_req", "elkm1/src/state.rs:poll_next", "elkm1/src/state.rs:interpret"]}
{"id": "C100", "title": "The bridge run only when it is woken", "statement": "The bridge's task is run by an executor only when something woke it: the panel's socket getting readable or writable again, the timer of a held arming report, a publish put into its channel, or anything else. Whatever happens (any bytes from the panel, any publishes, errors, any clock, any order in which select! polls), it goes through states it can also reach when polled at will with the same bytes and publishes. When it is not due there is nothing it could do: all that arrived from the panel is used up and its channel is empty, or bytes are left to write and the socket takes none, or it waits to send a command while another is not complete; running it anyway changes nothing. And it is due again as soon as bytes or an end of stream arrive, the socket takes a byte or breaks, a publish arrives or the held report's time comes, whichever of these it waits for. With the panel, network and MQTT clients of C99 it never sits on a command while another is not complete; and if it is run whenever due, with neither branch of select! polled first for ever, the socket eventually takes bytes, the panel answers and the network delivers, then from some time on it is in its loop and online, and every command asked for is completed, in order.", "quantifier": "all sequences of events from outside and runs; all configurations, panels, publishes, interleavings as in C99; all fair executions from the start of the program", "why_tests_cant": "a lost wake-up shows only in particular interleavings of network, timer, channel and executor, and as something that never happens", "anchors": ["elkm1-mqtt/src/main.rs:main", "elkm1-mqtt/src/main.rs:inner", "elkm1-mqtt/src/main.rs:handle_publish", "elkm1-mqtt/src/main.rs:run_eventloop", "elkm1/src/state.rs:poll_next", "elkm1/src/state.rs:poll_ready", "elkm1/src/state.rs:poll_flush", "elkm1/src/state.rs:init_req"]}
{"id": "C101", "title": "The bridge does not run in circles", "statement": "The bridge's task is run no more often than there is cause for, whatever the panel, the MQTT clients, the network and the clock do: in any execution the number of runs the executor makes because the task is due is at most three, plus four for every byte the panel has sent, three for every publish, and one for each time something else happened (room in the socket, time passing, a wake-up). And left alone it comes to rest: after at most four runs for each byte and three for each publish not used yet, and four more, it has ended, or it is not due and there is nothing it could do.", "quantifier": "all configurations and all sequences of events from outside and runs", "why_tests_cant": "that a task never wakes itself for ever on some input is about all inputs and about runs without end", "anchors": ["elkm1-mqtt/src/main.rs:inner", "elkm1-mqtt/src/main.rs:handle_publish", "elkm1/src/state.rs:poll_next", "elkm1/src/state.rs:init_req", "elkm1/src/state.rs:poll_ready", "elkm1/src/state.rs:poll_flush", "elkm1/src/tokio.rs:poll_next"]}
{"id": "C102", "title": "What the broker shows is up to date", "statement": "Run only when woken, the bridge as a whole tells MQTT clients what the panel has said. Whatever has happened: whenever the task is not due and is not sending a command, every packet in the bytes that have arrived from the panel has been used; each one after connecting has been published as an event, in order; each configured zone's state topic shows the status those packets leave it in; and each configured area's state topic shows the latest arming report among them, or the one before if the latest turns a disarmed area fully armed, but the latest once nothing has come from the panel for five seconds. Left alone, a bridge that is up gets there within the number of runs of C101, unless it ends, the panel's socket takes no bytes, or a command sent before is not complete.", "quantifier": "all configurations with distinct names, all sequences of events from outside and runs, all bytes", "why_tests_cant": "it relates everything the panel has ever sent to what the broker holds, at every moment the task sleeps, in any interleaving with the clock, the socket and the MQTT clients", "anchors": ["elkm1-mqtt/src/main.rs:inner", "elkm1-mqtt/src/main.rs:publish_area_states", "elkm1-mqtt/src/main.rs:publish_zone_state", "elkm1/src/state.rs:poll_next", "elkm1/src/state.rs:interpret_arming_status", "elkm1/src/tokio.rs:poll_next"]}
{"id": "C103", "title": "Everything the panel sends is told", "statement": "The bridge, run only when woken, against a panel that answers what it receives and sends whatever else it likes, a network that delivers what is sent in any pieces, and MQTT clients that ask for one command at a time: it comes up, stays up, and from some time on every packet the panel has sent until any given time has been taken up, in the order sent. Each packet not read while connecting has become an event of its own, published in order in a form it can be read back from; and at every moment since it came up each configured zone's state topic shows the status, and each configured area's the latest arming report (or the one before, while a sudden arming is held back), that follow from the packets taken up. So neither commands under way nor the order in which select! polls its branches can starve the panel.", "quantifier": "all configurations with distinct names that the MQTT client accepts, all panels, networks and MQTT clients as described, all fair executions", "why_tests_cant": "it is about what eventually happens in infinite executions of four parties, in every interleaving", "anchors": ["elkm1-mqtt/src/main.rs:inner", "elkm1-mqtt/src/main.rs:publish_area_states", "elkm1-mqtt/src/main.rs:publish_zone_state", "elkm1/src/state.rs:connect", "elkm1/src/state.rs:poll_next", "elkm1/src/state.rs:start_send", "elkm1/src/tokio.rs:poll_next"]}
{"id": "C104", "title": "Clients that do not wait", "statement": "With MQTT clients that publish commands whenever they like, also while earlier ones are not complete: the bridge never stops; commands are written to the panel and completed in the order in which they were asked for, and every event is published. As long as it does not take a command from its channel while the command before is not complete, every command asked for is completed in the end, however many are asked for at once; so commands that pile up while it connects, or while others are under way, are not lost. Two commands overlap exactly when select! takes a message asking for one while another is outstanding; from then on the bridge neither writes, completes nor publishes anything, for ever, while messages pile up in its channel. Both happen in fair executions with the same messages, depending on whether the panel's answer arrives before select! gets to the channel; so it is false that every command is completed.", "quantifier": "all configurations with distinct names that the MQTT client accepts, all panels and networks as in C99 and all MQTT clients whose payloads are UTF-8, all executions, fair ones for what happens in the end; polled at will, and run only when woken", "why_tests_cant": "whether two commands overlap is a race between the panel's answer and select!; and what happens in the end is about infinite executions", "anchors": ["elkm1-mqtt/src/main.rs:inner", "elkm1-mqtt/src/main.rs:handle_publish", "elkm1-mqtt/src/main.rs:run_eventloop", "elkm1/src/state.rs:poll_ready", "elkm1/src/state.rs:start_send", "elkm1/src/state.rs:poll_next"]}
{"id": "C105", "title": "Everything the panel sends is told, also with clients that do not wait", "statement": "With MQTT clients that publish commands whenever they like: from when the bridge is up, at every time, all the panel's packets that have arrived have been read while connecting, or were taken up each by an event of its own, which has been published, or are not taken up yet, in this order; and the topics of all zones and areas show what follows from all packets taken up. If commands never overlap in the sense of C104, the bridge comes up, stays up, and from some time on has taken up every packet sent until any given time. If commands do overlap, what the panel sends afterwards is never taken up, although the panel, the network and the executor do their part.", "quantifier": "all configurations with distinct names that the MQTT client accepts, all panels and networks as in C99 and all MQTT clients whose payloads are UTF-8, all executions of the bridge run only when it is woken, fair ones for what happens in the end, and all times", "why_tests_cant": "what is told in the end is about infinite executions, and whether commands overlap is a race", "anchors": ["elkm1-mqtt/src/main.rs:inner", "elkm1-mqtt/src/main.rs:handle_publish", "elkm1-mqtt/src/main.rs:publish_area_states", "elkm1-mqtt/src/main.rs:publish_zone_state", "elkm1/src/state.rs:poll_next", "elkm1/src/state.rs:poll_ready"]}
{"id": "C106", "title": "What watch tells, in terms of what the panel has sent", "statement": "While `elkm1-cli watch` follows the panel, its log is determined by the packets received since it has connected, the panel's state and names when it had connected, and when a held report came due. A zone change has a line with the zone's name, the state the last packet before said it had, whichever kind it was, and the new one, if these differ. An arming report has a line for each area whose state it changes, in the areas' order; but if nothing is held and an area that was disarmed is now fully armed, the report is held: it has no lines until the next report, whose lines are about the changes from the report before the held one, or until its time is up, when it has its own. Nothing else has lines. Of everything that has arrived, what has been told about is all but what has not been decoded yet.", "quantifier": "all sequences of arriving bytes, read errors and closing, all times of polling and all outcomes of writes", "why_tests_cant": "the log depends on the whole history: on states from reports that had no lines, and on reports that are held", "anchors": ["elkm1-cli/src/main.rs:watch", "elkm1/src/state.rs:poll_next"]}
{"id": "C107", "title": "How watch ends", "statement": "`elkm1-cli watch` ends in a step after which nothing happens any more. It returns only if the panel has closed the connection between two packets. It panics while connecting for one of the reasons of C85 or C37; afterwards, only with the message \"bytes remaining on stream\", if the panel has closed the connection in the middle of a packet, or with the message of the first read error. In these cases it has told, as in C106, about exactly the packets received before the end or the error. If the panel closes the connection or a read fails, it ends within a number of steps linear in the number of packets. A report that is held when the connection ends is lost: the log need not have the last state the panel has reported.", "quantifier": "all sequences of arriving bytes, read errors and closing, all times of polling and all outcomes of writes; for the bound, writes that make progress", "why_tests_cant": "covers every way and every point at which the connection may end", "anchors": ["elkm1-cli/src/main.rs:watch", "elkm1/src/state.rs:poll_next", "elkm1/src/tokio.rs:poll_next"]}
{"id": "C108", "title": "watch loses no wakeup", "statement": "`elkm1-cli watch` as a task that the executor runs only after it has been woken goes on just as if it were polled at any time: whatever the network and the clock do, its state and log are those of a history of polls with the same arrivals. When it is not to be run there is nothing for it to do: while connecting, the request is out and there is nothing to decode, or there is no room for the rest of the request; afterwards there is nothing to decode and no held report whose time is up; running it anyway would change nothing. It is woken by what gives it something to do: anything that arrives while it reads, room in the socket or the socket's failing while it writes, and the time of a held report. So once the panel has closed the connection or a read has failed it comes to an end, however seldom the executor runs it, if only it runs it after it has been woken.", "quantifier": "all interleavings of arriving bytes, read errors, closing, room in the socket, failing writes, passing time, spurious wakes and runs of the task", "why_tests_cant": "a lost wakeup shows only in some interleavings of the network, the timer and the executor, and then as something that does not happen", "anchors": ["elkm1-cli/src/main.rs:watch", "elkm1/src/state.rs:poll_next", "elkm1/src/tokio.rs:poll_next"]}
{"id": "C109", "title": "watch tells everything the panel sends", "statement": "With a panel that answers each request with a reply that it may, and sends anything else whenever it likes (but no names of its own accord while watch is connecting), `elkm1-cli watch`, run only after it has been woken, connects, knowing the panel's names, and from then on never ends. At any time its log has exactly the lines called for, as in C106, by some first part of what the panel has sent; lines stay; and whatever the panel has sent is told sooner or later. If the panel sends nothing more, there is a time after which all it has sent is told, no report is held back, and the arming status in effect is that of the panel's last report.", "quantifier": "all fair executions: the task is run after it has been woken, the socket gets room, requests are answered and bytes delivered, all eventually, in any pieces and any order; for the last part, time passes", "why_tests_cant": "liveness: it quantifies over infinite executions and every interleaving of panel, network, clock and executor", "anchors": ["elkm1-cli/src/main.rs:watch", "elkm1-cli/src/main.rs:main", "elkm1/src/state.rs:poll_next", "elkm1/src/tokio.rs:poll_next"]}
{"id": "C110", "title": "watch does not run in circles", "statement": "However long it goes on, the task of `elkm1-cli watch` is run because it is due no more often than three times to begin with, four times for every byte that the panel has sent, and once for everything else that has happened. So it comes to rest: after four more runs than four for every byte not used yet, with nothing happening in between, it has ended, or it is not due and there is nothing that it could do.", "quantifier": "all interleavings of arriving bytes, read errors, closing, room in the socket, failing writes, passing time, spurious wakes and runs of the task", "why_tests_cant": "a task that wakes itself for nothing still does everything right; only counting its runs over all executions shows it", "anchors": ["elkm1-cli/src/main.rs:watch", "elkm1/src/state.rs:poll_next", "elkm1/src/tokio.rs:poll_next"]}
{"id": "C111", "title": "When a client goes deaf", "statement": "The decoder waits for ever on a buffer, whatever else arrives, exactly if the buffer starts with an RP header and an escaped body of 1019 or 1020 bytes followed by DLE ETX. A panel that has answered Pending never yields another packet, whatever is sent to it and however it is called, exactly if the bytes it has received and not used start so. From then on no command is completed and at most one more is accepted, after which poll_ready never answers Ready(Ok); no status changes and there is no event, but that a report already held takes effect. The MQTT bridge publishes nothing more, except for such a report, however long it runs and however it ends; `elkm1-cli watch` tells nothing more, with the same exception.", "quantifier": "all byte strings; all reachable panels and histories; all configurations, inputs and continuations of the bridge; all histories of watch", "why_tests_cant": "says of infinitely many continuations that none brings anything; the frames concerned are two lengths among all", "anchors": ["elkm1/src/pkt.rs:RpPacket::decode", "elkm1/src/state.rs:Panel::poll_next", "elkm1/src/state.rs:Panel::poll_ready", "elkm1-mqtt/src/main.rs:inner", "elkm1-cli/src/main.rs:watch"]}
{"id": "C112", "title": "The programs from their command line on", "statement": "elkm1-mqtt runs exactly if its command line is a program name and one path, the file there can be read and its text is JSON for a configuration with both or neither of user name and password; it is then set up as the file says. Otherwise it stops, with the message that belongs to the reason, and the broker gets nothing from it. While it runs it publishes to topics that the file gives only; the broker is told nothing while it connects, retains \"online\" once it is up and \"offline\" when it has ended, on the topic below the file's prefix or elkm1/<serial number>. With a configuration in range with distinct names that the MQTT client accepts, a panel that answers and a network that delivers, it never ends and completes every command asked for. `elkm1-cli read` prints something exactly if the file can be read, and prints the same for no other contents.", "quantifier": "all command lines, file systems, file contents, MQTT clients and inputs; for the last part of elkm1-mqtt, all fair executions", "why_tests_cant": "ties the meaning of a text, found by a grammar, to executions of any length; needs every command line and every file", "anchors": ["elkm1-mqtt/src/main.rs:main", "elkm1-mqtt/src/main.rs:inner", "elkm1-cli/src/main.rs:read"]}
{"id": "C113", "title": "The size hints for fuzzing are right", "statement": "Each hand-written generator of the `arbitrary` feature (arm codes, zone, area, keypad and task numbers, dates, zone statuses, names) takes exactly as many bytes as its size_hint says: given that many or more, it makes a value from the first ones and leaves the rest, or refuses whatever follows. Given fewer, those of codes, zone statuses and names refuse, and those of numbers and dates act as if zeros followed.", "quantifier": "all inputs of any length", "why_tests_cant": "a wrong hint has no effect on any single input: it only makes the fuzzer waste bytes", "anchors": ["elkm1/src/msg.rs:ArmCode::size_hint", "elkm1/src/msg.rs:DateTime::size_hint", "elkm1/src/msg.rs:ZoneStatus::size_hint", "elkm1/src/msg.rs:TextDescription::size_hint"]}
{"id": "C114", "title": "A packet that is displayed can be read back", "statement": "Displaying an invalid packet writes one line with the reason it was refused, the line `raw data:`, and a hex dump of its bytes; displaying an RP packet writes a hex dump of its data. A dump starts with the number of bytes, and has each byte in hexadecimal and as a character at fixed columns of the line its number gives. So the text, whatever follows it, is that of no other packet with no other reason; and with these dumps the log line of an event is that of no other event, and the output of `elkm1-cli read` that of no other file.", "quantifier": "all byte streams and the invalid packets decoded from them; all RP packets; all byte strings; all events and files; for the columns, the first 65536 bytes", "why_tests_cant": "a test compares a few texts with expected ones; it cannot show that no two packets have the same text", "anchors": ["elkm1/src/pkt.rs:InvalidPacket::fmt", "elkm1/src/pkt.rs:RpPacket::fmt", "elkm1-cli/src/main.rs:read"]}
{"id": "C115", "title": "Home Assistant and the bridge understand each other", "statement": "With discovery switched on, Home Assistant (as its documentation has it) finds each area and each zone under an identifier of its own, on one device with the panel's serial number; it takes the entity to be available while the bridge is up, and unavailable once the bridge has ended. An area's state is retained where the announcement says, is the area's, and is one Home Assistant knows; disarm, arm home and arm away ask for exactly that of that area. It should also be that the other commands it offers do something, and that it understands the state of a zone: neither is so.", "quantifier": "all configuration files, all histories of the bridge, all areas and zones of the configuration, all seven commands", "why_tests_cant": "a test without Home Assistant compares topics and texts with expected ones; that the two sides agree, and for every state and configuration, it cannot show", "anchors": ["elkm1-mqtt/src/main.rs:publish_ha_discovery", "elkm1-mqtt/src/main.rs:publish_area_states", "elkm1-mqtt/src/main.rs:publish_zone_state", "elkm1-mqtt/src/main.rs:handle_publish"]}
{"id": "C116", "title": "Restarts", "statement": "Over any number of runs of the bridge, with whatever configurations, each ending anywhere (also killed with requests still queued): between runs every availability topic says offline, and during a run only this run's says online. While it says online, everything this configuration has the broker keep is there and is from this run. What the broker keeps while the bridge is up is this run's, and, on topics this configuration does not use, what earlier runs left. It should also be that whatever is announced and available is in the bridge's charge; it is not so for what has been removed from the configuration.", "quantifier": "all sequences of configuration files, all histories of each run, all points at which a run may end or be cut short, all topics", "why_tests_cant": "a test starts from an empty broker; leftovers of earlier runs and the places at which a run may be cut off are unlimited in number", "anchors": ["elkm1-mqtt/src/main.rs:main", "elkm1-mqtt/src/main.rs:inner", "elkm1-mqtt/src/main.rs:publish_ha_discovery", "elkm1-mqtt/src/main.rs:publish_area_states", "elkm1-mqtt/src/main.rs:publish_zone_state"]}
{"id": "C117", "title": "What is shown is true", "statement": "Suppose the panel tells how things are whenever they change, except that, as the code's comments say, it may when arming with an exit delay first report the area as fully armed and then at once report it rightly. Then, once everything it sent has arrived and the bridge waits for more, every zone's topic shows the zone's status, and every area's topic shows how the area is armed; only when an area was fully armed from disarmed by the last report may the areas' topics, for at most five seconds, show how things were just before. The same should hold at every moment, for what the panel did up to the last packet taken up: no spurious report is ever shown.", "quantifier": "all behaviours of such a panel, all splits of its bytes into arrivals, all interleavings with polls, timers, commands and MQTT messages", "why_tests_cant": "whether the filter for spurious reports lets one through depends on the order and the timing of everything before it, which tests only sample", "anchors": ["elkm1/src/state.rs:interpret_arming_status", "elkm1/src/state.rs:poll_next", "elkm1-mqtt/src/main.rs:inner", "elkm1-mqtt/src/main.rs:publish_area_states", "elkm1-mqtt/src/main.rs:publish_zone_state"]}
{"id": "C118", "title": "The build profile makes no difference", "statement": "Built for release, where integer arithmetic wraps and debug assertions are gone, the library, the bridge and the command-line tool do what they do in a debug build: every packet decodes to the same, every message is read the same and, unless it was deserialised with values out of range, written the same, every sequence of calls on a connected panel has the same results, connecting takes the same course, the watching tool logs the same lines, and the bridge publishes the same, whatever the panel and the broker send.", "quantifier": "all byte streams, splits and interleavings; for encoding, packets that can be constructed (up to 253 bytes), and the bound is sharp", "why_tests_cant": "tests run in the debug profile, what is deployed is built for release; that no wrap-around is ever reached needs the invariants of all reachable states", "anchors": ["elkm1/src/pkt.rs:encode", "elkm1/src/pkt.rs:decode", "elkm1/src/msg.rs:from_ascii", "elkm1/src/msg.rs:to_ascii", "elkm1/src/msg.rs:to_index", "elkm1/src/state.rs:send_sds", "elkm1/src/state.rs:interpret", "elkm1-mqtt/src/main.rs:ha_area_state"]}
{"id": "C119", "title": "The panel's input buffer is not overrun", "statement": "At any time, the bytes waiting in the panel's input buffer, those of the requests it was sent and has not taken up yet, are at most those of one request plus one for each packet that the panel sent of its own accord and that could be taken for an answer: while connecting, an arming report and a report of all zones at most once each and any name; afterwards only code and task reports. With up to 13 such packets the buffer's 250 bytes suffice. Counting can start afresh at any moment when all requests are taken up and all packets read, so this holds for however long it runs. Without a bound on such packets the buffer can be overrun, though the caller waits for every answer.", "quantifier": "all panels, whatever they take up, answer and send of their own accord; all schedules, splits and partial writes; connecting, the library and the bridge", "why_tests_cant": "the documentation only says to wait for a response after each command because the buffer holds 250 characters; whether that suffices depends on which packets are taken for responses, over unbounded runs", "anchors": ["elkm1/src/state.rs:send_sds", "elkm1/src/state.rs:interpret", "elkm1/src/state.rs:start_send", "elkm1/src/state.rs:poll_ready", "elkm1/src/msg.rs:is_response_to"]}
{"id": "C120", "title": "From a button in Home Assistant to the panel", "statement": "When the bridge is up, Home Assistant has been told, for each configured area, a topic to publish to and what to publish. If it publishes what it sends for disarming, arming home or arming away, and the panel answers, the network delivers and the task is run when woken, then what the panel's socket is given next is exactly the request for this area, this level and the configured code, and an event saying that this request is complete is published afterwards. Whatever the panel and the network do, when a published event says that a command is complete, then this command and all before it have been given to the socket in full.", "quantifier": "all configuration files, areas, alarm actions and payload texts; all executions with an answering panel and clients that wait for completion; for the last sentence all executions whatsoever", "why_tests_cant": "it joins the announcement, the subscription, the queue, the sink, the connection and the panel's answer, over all schedules and partial writes; a test sees one path", "anchors": ["elkm1-mqtt/src/main.rs:publish_ha_discovery", "elkm1-mqtt/src/main.rs:handle_publish", "elkm1-mqtt/src/main.rs:inner", "elkm1/src/state.rs:start_send", "elkm1/src/state.rs:poll_flush", "elkm1/src/state.rs:interpret"]}
{"id": "C121", "title": "What errors and the log quote can be read back", "statement": "A byte that is no value of an enum is shown in the error as a Rust character literal of that byte's character, whatever the byte: a quote, a backslash, a control character, or one above 127. A text too short or too long for a packet is shown as a string literal, and so is every text in the log. Such a literal has no control characters, stands for one text only, and can be told from what follows it.", "quantifier": "all bytes; all nine enums of single bytes; all texts; all following characters", "why_tests_cant": "each byte is formatted in its own way, and whether two texts are ever written alike is a statement about all pairs", "anchors": ["elkm1/src/msg.rs:try_from", "elkm1/src/pkt.rs:try_from", "elkm1/src/pkt.rs:check_printable"]}
{"id": "C122", "title": "The one unchecked conversion in the library is sound", "statement": "AsciiPacket::try_from turns bytes into a String without checking that they are UTF-8. Every sequence of bytes that gets that far is UTF-8 text with one byte to a character, so it can also be cut at any index. So is the body of every ASCII packet made from bytes, decoded from the wire, or built from a message, whatever the message's fields hold. Where the code does check (from_utf8), what is accepted is exactly the texts of RFC 3629, and a text has one reading.", "quantifier": "all byte sequences; all messages, also with values out of range", "why_tests_cant": "soundness of unsafe code is a statement about all inputs; a test that meets no bad input shows nothing", "anchors": ["elkm1/src/pkt.rs:try_from", "elkm1/src/pkt.rs:check_printable", "elkm1/src/pkt.rs:decode", "elkm1/src/msg.rs:to_pkt", "elkm1/src/msg.rs:parse_u8_dec"]}
{"id": "C123", "title": "Home Assistant shows how the house is", "statement": "When the bridge is up, Home Assistant gets to know of the configured areas and zones, of each once, and of nothing else; and of nothing at all when discovery is not configured. If the panel is what it says, then when all it has sent has arrived and the bridge waits for more, each alarm panel in Home Assistant is that of a configured area and shows a state that Home Assistant knows and that is this area's; for up to five seconds after an area was fully armed from disarmed this may be how it was before. Where Home Assistant is told to find a zone's state, it is the zone's.", "quantifier": "all configurations; all executions of the bridge's task; all panels that are what they say, also with the fault the code works around", "why_tests_cant": "joins all that the panel can do with all interleavings and all configurations", "anchors": ["elkm1-mqtt/src/main.rs:publish_ha_discovery", "elkm1-mqtt/src/main.rs:publish_area_states", "elkm1-mqtt/src/main.rs:publish_zone_state", "elkm1-mqtt/src/main.rs:inner", "elkm1/src/state.rs:poll_next"]}
{"id": "C124", "title": "What is shown becomes right and stays right", "statement": "When nothing changes any more in the house (the panel may still send what is so already, and anything else), then from some time on and for ever the topics of all areas and zones show how they are, and so does every alarm panel and sensor that Home Assistant got to know: in every fair execution in which time passes and the bridge gets to rest again and again. Without the last it need not be so: if the panel sends something whenever the bridge is about to run, a report that an area is fully armed, which is held back for five seconds, is never shown.", "quantifier": "all configurations; all infinite fair executions of the bridge's task, run only when woken, with a panel that is what it says, the network between and MQTT clients whose commands do not overlap", "why_tests_cant": "a claim about all infinite executions: that something good happens and lasts", "anchors": ["elkm1/src/state.rs:poll_next", "elkm1/src/state.rs:interpret_arming_status", "elkm1-mqtt/src/main.rs:inner", "elkm1-mqtt/src/main.rs:publish_area_states", "elkm1-mqtt/src/main.rs:publish_zone_state"]}
{"id": "C125", "title": "The events are enough to know how the house is", "statement": "Whoever sees a panel's events and nothing else (a message, and what changed) can keep account of the arming status and of the zones: starting from what the accessors say at some time, they know at every later time exactly what the accessors say then, without knowing the rules by which reports are held back. Who starts knowing nothing never knows anything wrong, and knows each zone from the first message about it and the arming status from the first change that comes with its report. The same holds for who reads the texts on the bridge's event topic, and what they know agrees with what the state topics hold.", "quantifier": "all reachable panels, all sequences of calls, all network input; all configurations and runs of the bridge", "why_tests_cant": "the claim is about the whole of every history, and about an observer who knows only the events", "anchors": ["elkm1/src/state.rs:interpret", "elkm1/src/state.rs:interpret_arming_status", "elkm1/src/state.rs:poll_next", "elkm1-mqtt/src/main.rs:inner"]}
{"id": "C126", "title": "Clients of one panel come to agree", "statement": "Two clients of the same panel, connected at whatever times and used in whatever ways, that have since got the same bytes and have read all of them, have got the same packets. They agree about the newest arming report exactly if there was one among them, or they agreed before; once neither holds a report back, they agree about the arming status under the same condition. They agree about a zone exactly if there was a message about it, or they agreed before. So two bridges, with whatever configurations and MQTT clients, come to show the same for the areas and zones both have.", "quantifier": "all pairs of reachable panels, all pairs of histories that receive the same bytes; all pairs of bridges", "why_tests_cant": "a claim about all pairs of histories: how the bytes were cut up, when they were read and what was sent in between is arbitrary on both sides", "anchors": ["elkm1/src/state.rs:interpret", "elkm1/src/state.rs:interpret_arming_status", "elkm1/src/state.rs:poll_next", "elkm1-mqtt/src/main.rs:publish_area_states", "elkm1-mqtt/src/main.rs:publish_zone_state"]}
{"id": "C127", "title": "A recording shows what was received", "statement": "Reading a recording of the bytes a connection received prints the packets the connection answered, however the bytes were cut up and whenever it was polled, and then, exactly if the connection would answer an error at the end, the incomplete rest. For a client that has read all there is, it prints the packets that came while connecting, and then exactly the packets of its events, and the bytes it still holds. When the recording goes on, the packet lines already printed stay, and what is added is what is printed for the rest with what follows.", "quantifier": "all byte streams, all ways they arrive, all interleavings with polls, all connections and uses of a panel", "why_tests_cant": "relates two programs over all streams, all cuts and all interleavings", "anchors": ["elkm1-cli/src/main.rs:read", "elkm1/src/tokio.rs:poll_next", "elkm1/src/tokio.rs:decode", "elkm1/src/state.rs:poll_next", "elkm1/src/pkt.rs:decode"]}
{"id": "C128", "title": "What is known of one area or zone does not depend on the others", "statement": "A zone's status is the last that was said of this zone, whatever was said of others. An area's arming status, up state and alarm state should likewise be the last that was said of this area, whatever was said of others; in particular, an alarm that was reported for an area should be shown at once.", "quantifier": "all reachable panels, all histories, all areas and zones; all pairs of clients; all bridges", "why_tests_cant": "independence relates all pairs of histories that agree in one part", "anchors": ["elkm1/src/state.rs:interpret_arming_status", "elkm1/src/state.rs:interpret", "elkm1/src/msg.rs:is_transition_suspicious", "elkm1-mqtt/src/main.rs:publish_area_states"]}
{"id": "C129", "title": "Nothing is armed or disarmed unasked", "statement": "Whatever bytes the panel sends, however they are cut up, and whatever comes from MQTT: all that a panel reading what the bridge sends ever reads is requests for the arming status, the zone statuses and names, and after them requests to arm or disarm, one for each message that asks for it, in the order of the messages, for an area of the configuration and with the configured code. Before the bridge is connected there is no command among them; while no message asks, there is none at all; a task is never activated. A program that does not use the Sink sends no commands; one that does sends those given to start_send, in order.", "quantifier": "all configurations, all clients, all sequences of inputs (arbitrary panel bytes, read errors, MQTT messages, polls, partial writes); all moments of the stream sent; for the library all panels and histories", "why_tests_cant": "that something is never sent, for arbitrary input, is not something that tests can show; a hostile panel's bytes are unlimited", "anchors": ["elkm1/src/state.rs:connect", "elkm1/src/state.rs:start_send", "elkm1-mqtt/src/main.rs:handle_publish", "elkm1-mqtt/src/main.rs:inner"]}
{"id": "C130", "title": "The order of the areas and zones makes no difference", "statement": "The configuration's areas and zones are in hash maps, which are gone through in an order that differs from one start of the program to the next. This order, and that of the members in the file, makes no difference: with the same inputs, two bridges that differ only in it are at every moment in the same phase, have sent the same to the panel, have published the same messages in the same order on every topic, have subscribed to the same topics, and the broker retains the same for them; if one dies, so does the other, for the same reason.", "quantifier": "all configurations and all reorderings of their maps; all MQTT clients for which the order of topics in a subscription does not matter; all sequences of inputs", "why_tests_cant": "the order is random in the program itself, so that a test sees one order at a time, a different one each time; the claim relates all pairs", "anchors": ["elkm1-mqtt/src/main.rs:publish_area_states", "elkm1-mqtt/src/main.rs:publish_ha_discovery", "elkm1-mqtt/src/main.rs:handle_publish", "elkm1-mqtt/src/main.rs:inner", "elkm1-mqtt/src/main.rs:main"]}
{"id": "C131", "title": "Adding areas and zones to the configuration changes nothing for the others", "statement": "A bridge that is configured with more areas and zones does everything that one with fewer would do: with the same inputs, as long as no message commands one of the added areas, the one with fewer would be running whenever the other is, the panel would have been sent the same bytes, and on each topic of the fewer areas and zones (their states, their announcements), on the event topic and on the availability topic exactly the same messages would have been published in the same order, so that the broker retains the same.", "quantifier": "all pairs of configurations of which one has all areas and zones of the other; all MQTT clients that accept the smaller subscription; all sequences of inputs", "why_tests_cant": "relates two runs of unbounded length for all pairs of configurations; a test has one configuration", "anchors": ["elkm1-mqtt/src/main.rs:publish_area_states", "elkm1-mqtt/src/main.rs:publish_zone_state", "elkm1-mqtt/src/main.rs:publish_ha_discovery", "elkm1-mqtt/src/main.rs:handle_publish", "elkm1-mqtt/src/main.rs:inner"]}
{"id": "C132", "title": "A wrong byte costs one packet", "statement": "If one byte of one packet arrives wrong, the packet is replaced by one invalid packet that consists of its bytes, and all packets before and after it are received as if nothing had happened.", "quantifier": "all packets, all wrong bytes at all places, all that is received before and after", "why_tests_cant": "the claim is about every packet, byte value and place and about everything that may follow; that the decoder may never get back in step shows only on an infinite family of continuations", "anchors": ["elkm1/src/pkt.rs:decode", "elkm1/src/tokio.rs:decode", "elkm1/src/state.rs:poll_next"]}
{"id": "C133", "title": "A lost or added byte costs one packet", "statement": "If one byte of one packet gets lost, or one byte is added, at most this packet is lost: the packets before and after it are received as if nothing had happened, apart from invalid packets in its place.", "quantifier": "all packets, all places, all values of an added byte, all that is received before and after", "why_tests_cant": "the claim is about every packet and place and about everything that may follow; that the decoder may never get back in step shows only on an infinite family of continuations", "anchors": ["elkm1/src/pkt.rs:decode", "elkm1/src/tokio.rs:decode", "elkm1/src/state.rs:poll_next"]}
{"id": "C134", "title": "It is noticed when the panel has gone", "statement": "If the panel goes away, be it that it closes the connection, that the connection fails, or that nothing comes from it any more (no power, a broken cable), the bridge notices and ends, so that the broker shows it as offline instead of states that may no longer be true; a program that reads from Panel is told.", "quantifier": "all states in which the bridge has used all that came, all further MQTT messages, polls and writes the socket takes, in any order and at any time; all calls on a panel", "why_tests_cant": "that something is never noticed is a statement about executions of any length and about any time that passes", "anchors": ["elkm1/src/state.rs:poll_next", "elkm1/src/state.rs:poll_ready", "elkm1-mqtt/src/main.rs:main"]}
{"id": "C135", "title": "What a reader of the JSON puts up with", "statement": "Events, messages and packets are read from JSON in the same way whatever order the members of its objects are in, at every depth, whether or not there are members that nobody knows, and whether an absent option is null or missing. So every event that a panel yields, but a zone status report, can be read back from what the bridge publishes even after a tool has sorted the members, dropped the nulls and added members of its own. Only to an object that names a variant of an enum nothing can be added.", "quantifier": "all JSON values, all changes of these kinds at any depth, in any number, made and undone; all events of all reachable panels", "why_tests_cant": "the values and the places at which they may be changed are unbounded", "anchors": ["elkm1/src/state.rs:Event", "elkm1/src/msg.rs:Message", "elkm1/src/pkt.rs:Packet"]}
{"id": "C136", "title": "Enough bytes that begin no packet bring the decoder back in step", "statement": "Whatever bytes came before (noise, the rest of a packet whose beginning was missed, damaged packets), a run of 1023 bytes that are neither uppercase hex digits nor DLE (CR LF, for instance) brings the decoder in step: the packet that follows it and everything after that is decoded exactly as if nothing had come before, and a Connection hands it out, however the network splits the bytes. If no DLE was among what came before, 257 bytes are enough, and 256 are not.", "quantifier": "all byte strings before, all runs of such bytes, all valid packets, all bytes that follow, all ways of splitting them into reads", "why_tests_cant": "what came before is unbounded, and every offset at which a packet may seem to begin matters", "anchors": ["elkm1/src/pkt.rs:decode", "elkm1/src/tokio.rs:Connection"]}
{"id": "C137", "title": "What the bridge shows after a byte from the panel was wrong or lost", "statement": "If one byte of what the panel sends arrives wrong or not at all, what the bridge shows may miss what that packet said, but becomes right again with the following packets: once everything has been read, every zone's topic shows the status that the later packets leave it in, and every area's topic the latest arming report among them.", "quantifier": "all configurations, all runs of the bridge, all damaged packets and all bytes that follow", "why_tests_cant": "the number of packets that follow is unbounded, and that something is never shown again can't be seen in a finite run", "anchors": ["elkm1/src/pkt.rs:decode", "elkm1/src/state.rs:poll_next", "elkm1-mqtt/src/main.rs:main"]}
{"id": "C138", "title": "Bridges that share a broker keep apart", "statement": "Two bridges for panels with different serial numbers that use one broker have no topic in common: what the broker gets and holds on the topics of one is what this bridge has published there (and its last will once it has ended), whatever the other does and when; and neither acts on a message for the other.", "quantifier": "all pairs of accepted configurations, all pairs of executions, all ways in which their publishes interleave at the broker", "why_tests_cant": "pairs of executions and their interleavings are unbounded, and names, serial numbers and prefixes are arbitrary texts", "anchors": ["elkm1-mqtt/src/main.rs:main", "elkm1-mqtt/src/main.rs:publish_ha_discovery", "elkm1-mqtt/src/main.rs:handle_publish"]}
{"id": "C139", "title": "The bridge listens to the topics of its areas' commands and to no others", "statement": "Whatever names, serial number and prefixes are configured, the filters the bridge subscribes to match exactly the command topics of its areas: none has a wildcard in it. While it is up it listens to all of them. With a wildcard in an area's name it neither subscribes to anything nor comes up.", "quantifier": "all accepted configurations with names of any characters, all executions, all topics; all clients that refuse to publish to topics with wildcards", "why_tests_cant": "names are arbitrary texts, and a filter matches infinitely many topics", "anchors": ["elkm1-mqtt/src/main.rs:main", "elkm1-mqtt/src/main.rs:publish_area_states"]}
{"id": "C140", "title": "A command given over MQTT is carried out once, by a bridge that was running when it was given", "statement": "A message that asks to arm or disarm makes the panel do so at most once; and a bridge carries out no command that was given before it was listening.", "quantifier": "all configurations, all executions of any number of runs of the bridge, all messages with and without the retain flag", "why_tests_cant": "the number of restarts after a message is unbounded, and executions and messages are arbitrary", "anchors": ["elkm1-mqtt/src/main.rs:handle_publish", "elkm1-mqtt/src/main.rs:run_eventloop", "elkm1-mqtt/src/main.rs:main"]}
{"id": "C141", "title": "A message that holds a value out of range is refused or arrives as it is", "statement": "A message read from JSON, which need not hold values in range (C55), is when sent either received as the same message or refused; it is never received as another message.", "quantifier": "all serialised values, all messages they are read as", "why_tests_cant": "the messages are all that serde accepts, with every byte in every field; the claim needs every one of them to be parsed", "anchors": ["elkm1/src/msg.rs:Message::to_pkt", "elkm1/src/msg.rs:Message::parse", "elkm1/src/msg.rs:ZoneChange", "elkm1/src/msg.rs:SendCode", "elkm1/src/msg.rs:SendTimeData", "elkm1/src/msg.rs:RtcData"]}
{"id": "C142", "title": "A name's topics all speak of one area", "statement": "The area whose state is shown on the state topic of a name is the area that commands on the command topic of that name are sent for, whatever names the configuration gives.", "quantifier": "all configurations, all executions of the bridge", "why_tests_cant": "the order in which the areas are gone through is arbitrary, and the claim is about every configuration and every state that a bridge gets into", "anchors": ["elkm1-mqtt/src/main.rs:publish_area_states", "elkm1-mqtt/src/main.rs:handle_publish", "elkm1-mqtt/src/main.rs:inner"]}
{"id": "C143", "title": "The topic of a zone's name shows every zone of that name", "statement": "Whatever names the configuration gives, the state topic of a name shows the present state of each zone called so.", "quantifier": "all configurations, all executions of the bridge", "why_tests_cant": "the claim is about every configuration and every state that a bridge gets into, after any sequence of zone changes", "anchors": ["elkm1-mqtt/src/main.rs:publish_zone_state", "elkm1-mqtt/src/main.rs:inner"]}
{"id": "C144", "title": "An event is never too large to be published", "statement": "What the bridge publishes for an event, whatever the panel sends, takes at most 10 KiB, which is all that its MQTT client sends by default (it gives an error for a larger packet, on which the bridge ends).", "quantifier": "all executions of the bridge, all bytes from the panel", "why_tests_cant": "the size depends on every byte of the packet; the claim is about all packets up to the longest ones", "anchors": ["elkm1-mqtt/src/main.rs:inner", "elkm1-mqtt/src/main.rs:run_eventloop", "elkm1/src/pkt.rs:InvalidPacket", "elkm1/src/state.rs:Event"]}
{"id": "C145", "title": "What the bridge publishes besides events is never too large", "statement": "With a configuration whose texts (serial number, topic prefixes, names and device classes) have at most 100 bytes each, every retained publication of the bridge - states, availability and Home Assistant announcements - leaves at least 1000 of the 10240 bytes that its MQTT client sends by default, the topic included, and so does its subscription once it is up. So only an event can be too large.", "quantifier": "all executions of the bridge, all configurations with texts of at most 100 bytes, whatever characters they consist of", "why_tests_cant": "the size depends on how the characters of all configured texts are escaped, and the claim is about all configurations and all states of the panel", "anchors": ["elkm1-mqtt/src/main.rs:publish_ha_discovery", "elkm1-mqtt/src/main.rs:publish_area_states", "elkm1-mqtt/src/main.rs:publish_zone_state", "elkm1-mqtt/src/main.rs:inner"]}
{"id": "C146", "title": "The bridge publishes what happened and nothing else", "statement": "Once it is up, all that the bridge publishes is, event by event: the event, not retained, and after it, retained, the state of the zone that changed if that zone is configured, or the states of all configured areas if an arming report took effect, and nothing if nothing changed. So each event makes for at least one and at most nine publications, and without an event there is none.", "quantifier": "all executions of the bridge, between any two moments at which it is up, all configurations", "why_tests_cant": "the claim is about everything that is ever published, in order, for all events", "anchors": ["elkm1-mqtt/src/main.rs:inner", "elkm1-mqtt/src/main.rs:publish_area_states", "elkm1-mqtt/src/main.rs:publish_zone_state"]}
