{
 "C04": {
  "status": "proved",
  "note": "Decoder part in PropPkt.v, Connection part in PropConn.v."
 },
 "C07": {
  "note": "False as stated: RP frame with DLE ETX at offset 1021/1022 stalls (refuted with witness, stalls forever); the exact set of waiting buffers is proved."
 },
 "C18": {
  "status": "proved",
  "note": "The canonical-form property is proved in full; the stronger identity reading mentioned in the statement is refuted with a witness (ZC+16900)."
 },
 "C23": {
  "note": "False as stated: FireAlarm is not 'firing' because the comparison is strict (msg.rs:1135-1137). Refuted with witness; exact characterisation proved (every alarm except FireAlarm)."
 },
 "C26": {
  "note": "False as stated: year 2100 is accepted and prints 20 characters. Refuted with witness; exact accepted strings proved, and the round trip for every other year."
 },
 "C27": {
  "note": "False as stated: slicing a str inside a multi-byte character panics. Refuted with witness; no panic proved for ASCII strings and for every length other than 19; exactly which strings panic is proved (C27_panics_exactly_partial)."
 },
 "C32": {
  "note": "False as stated: a ZS report after connect replaces all statuses and announces nothing (state.rs:233-235). Refuted with a reachable witness; proved for every poll that does not receive ZS, and what ZS does is stated exactly."
 },
 "C43": {
  "note": "False as stated: a matching message that arrives before the flush makes the panel Idle, so poll_flush answers Ready(Ok) with the command still buffered (state.rs:392-408). Refuted with a reachable witness; proved while the command is outstanding. Exactly: a finished flush has written everything, or there was no command outstanding and it did nothing; what was left is written by the next command's flush."
 },
 "C44": {
  "note": "False as stated: Connection::poll_close calls poll_flush (tokio.rs:78-83), the socket is never shut down. Refuted with witness and for every reachable state; proved that everything is written."
 },
 "C37": {
  "note": "False as stated: a name reply (SD) whose number is beyond the table indexes out of bounds (state.rs send_sds). Refuted with a witness; exactly when a step crashes is proved, and that no packet sequence without such a reply crashes it."
 },
 "C55": {
  "note": "False as stated: the derived Deserialize of the wrapper types checks nothing. Refuted with a witness for every type, and with the panics that follow; exactly what each wrapper and each message accepts is proved."
 },
 "C56": {
  "note": "False as stated: serialising a zone status report is a todo!() and dates are read as borrowed strings. Refuted with reachable witnesses; proved for every other event a panel can emit, with the exact set readable from a reader."
 },
 "C47": {
  "note": "False as stated: a fire alarm is not shown as triggered (follows from C23). Refuted with a witness; exact characterisation proved, and the stated one for every other alarm."
 },
 "C51": {
  "note": "False as stated: a zone status report crashes the bridge (serialising it is a todo!()), and two commands in quick succession block it forever because the loop does not read the panel while it waits to send. Both refuted with reachable witnesses; blocked-forever proved for every such state, exactly which inputs stop it proved, and progress in every other state."
 },
 "C59": {
  "note": "False as stated: the event that completes an arm command carries the command with its code, and is published. Refuted with a reachable witness. Proved for every execution: two runs that differ only in the code publish the same things except for the code inside the command an event completes; and without commands nothing published depends on the code."
 },
 "C61": {
  "note": "False as stated: the generator of arm codes shifts its bytes by 24 and 16 bits instead of 16 and 8, so it makes only 4096 of the 1000000 codes (code 000256 never). Refuted with a witness; the exact set of messages it makes is proved."
 },
 "C62": {
  "note": "False as stated for deserialised messages: arm codes and texts that are not UTF-8 and zone statuses of 16 and more can be read from JSON and panic when written. Refuted with witnesses. Proved: exactly which messages can be written, and that every event, state and checked command can."
 },
 "C64": {
  "note": "False as stated: a name that starts with a space counts as empty and is left out. Refuted with a witness. Proved: exactly the names that start with a space are left out (all empty ones among them), and zone status reports list exactly the configured zones."
 },
 "C65": {
  "note": "False as stated: the clock (RtcData) has no rename_all, so clock_display and date_display keep their snake_case names. Refuted with a heartbeat; proved with that exception for every message and every event of a reachable panel."
 },
 "C67": {
  "note": "False as stated: an area number no panel has is found out only after the area has been announced (retained) to Home Assistant. Refuted with a witness. Proved: the bridge comes up exactly if the configuration is in range and the client accepts it, ends otherwise, and never runs or says it is online with a bad configuration."
 },
 "C68": {
  "note": "False as stated: two areas (or zones) of the same name are accepted and share their topics. Refuted with a witness. Proved for distinct names, whatever the names and prefixes; that these are the only topics is proved for all configurations."
 },
 "C69": {
  "note": "False as stated: a bridge blocked by two commands in quick succession (C51) stays online for ever. Refuted with a witness. What the availability topic holds in every state is proved exactly."
 },
 "C70": {
  "note": "False as stated: one wrong bit can turn a body byte 17 into DLE and end the frame where the body happens to hold the right checksum; refuted with such a frame for (almost) every packet. Proved for errors that change body and checksum bits without changing the framing: accepted exactly if the wrong bits are a multiple of the generator polynomial, hence none of the named kinds; frames of equal length differ in at least four bits."
 },
 "C71": {
  "note": "False as stated, in two ways: the timer is looked at only when no packet is waiting, so unrelated packets can hide the report for ever; and when the connection ends the report is lost. Refuted with witnesses (for all later times, and all later calls). Proved: it takes effect at the first poll after five seconds that finds no packet, which is the poll after the last packet received."
 },
 "C72": {
  "note": "False as stated: at the end of the stream nobody is woken, and poll_ready answers Pending for ever (refuted: for all later calls). Proved: only a reply ends the wait; once a reply has been received, as many polls as packets received complete the command and wake the last waiter, and poll_ready is ready."
 },
 "C73": {
  "note": "C73_accepted_iff is exact for frames with intact length and CRLF (C08 covers one wrong byte anywhere). Partial because the general claim is false: C73_reordered_refuted (every reordering of every body passes) and C73_arm_request_refuted (for every arm request whose level and area digits can be exchanged)."
 },
 "C74": {
  "note": "Refinement of the bridge model by one with the bounded channel (Queue.v). Partial because what is in the channel at the end of the process is lost (C74_lost_at_the_end_refuted, a witness; C74_end_is_final for all continuations)."
 },
 "C75": {
  "note": "Non-interference, by simulation: panels that differ only in the write half and the command state."
 },
 "C76": {
  "note": "Relational proof; the times are tokio's Instants in milliseconds."
 },
 "C77": {
  "note": "All histories; the socket and the timer keep the last waker given to them, as tokio's do."
 },
 "C78": {
  "note": "False for poll_ready and poll_flush (refuted): when they wait for the socket, the waker is not stored in CmdState, so a reply that arrives before the command is written completes it and wakes nobody. Proved: this is the only exception, it cannot happen with poll_close, and the task is then still woken as soon as the socket takes a byte."
 },
 "C79": {
  "note": "The grammar of RFC 8259 is stated as relations (SpecJson.v); serde_json's writer and reader are modelled from its documentation (JsonText.v), as it is not in the sandbox."
 },
 "C80": {
  "note": "serde_json's reader is modelled from its documentation (JsonText.v states the simplifications)."
 },
 "C81": {
  "note": "SpecReason.v gives the texts and when each is true, without the decoder; C81_reason_exact says the decoder's text is exactly that one."
 },
 "C82": {
  "note": "The claim about lengths is false of SD replies (C82_sd_length_text_refuted), proved for all other commands (C82_lengths_true_partial); the range [0, 255) in the texts about numbers excludes 255, which is accepted (C82_range_text_refuted). Dates with multi-byte characters panic (C27) and are left out."
 },
 "C83": {
  "note": "The composition of C28, C29, C30, C48, C49 and C58 into one statement with a single split of the byte stream."
 },
 "C84": {
  "note": "Over the characters (FmtText.v: std's builders, PadAdapter and str's escapes), where C63 is over the structure. hex_dump() is a parameter; dump_ok (SpecLog.v) is what is assumed of it, for packets only. Error texts are shown printable from C81's and C82's characterisations."
 },
 "C85": {
  "note": "fails_because is stated over the history up to the failing step. The texts of tokio_util's own two errors are taken from its documentation."
 },
 "C86": {
  "note": "The log is modelled as level, text and fields of each tracing call; time stamps, target and span are not modelled."
 },
 "C87": {
  "note": "A report on hold that is dropped by one that is not suspicious leaves no line (Story_dropped)."
 },
 "C88": {
  "note": "How rumqttc writes a Publish, and bytes a payload, is a parameter (by topic and payload). The TRACE line for each notification of the MQTT event loop (main.rs:335) is not modelled."
 },
 "C89": {
  "note": "False in full (C89_code_not_logged_refuted). Missing from the partial theorems: the lines excepted."
 },
 "C90": {
  "note": "The change shown with a message that came is not specified here (see C29 to C32)."
 },
 "C91": {
  "note": "False in full (C91_unsent_bounded_refuted, and C07). Missing from the partial theorems: panels whose replies come before the command is written, and the frames of C07. Only bytes are counted; the messages from MQTT that wait in the bridge's channel are not bounded (see C51)."
 },
 "C92": {
  "note": "The line is reliable (no read errors) and a dropped end ends the stream; that TCP may reset it instead is not modelled."
 },
 "C93": {
  "note": "The caller, the panel and the network are specification (SpecSend.v). The panel p may be any one that has seen nothing but data and has no command outstanding; the packets under way at the start are whole ones."
 },
 "C94": {
  "note": "Lines are level, text and fields; time stamp, thread name, target and span, added by tracing-subscriber, are not modelled."
 },
 "C95": {
  "note": "The socket wakes the last task that found it not ready, as Tokio documents; any time may pass before a task that is due runs. For the end of connecting, nothing arrives after the connection ended or, for a failed read, after some point."
 },
 "C96": {
  "note": "C96_reasons_can_differ is a witness of the exception."
 },
 "C97": {
  "note": "The one lost wake-up of C78 (a command completed before it is written) needs a full socket, so it does no harm here. The caller is not code of the repository."
 },
 "C98": {
  "note": "The conditions are needed: without them C51's witnesses (two commands in quick succession, a zone status report, a payload that is not UTF-8) stop the bridge. The panel, network and clients are not code of the repository."
 },
 "C99": {
  "note": "C36 and C98 put together, with the handover between them: nothing under way is lost or read twice when the bridge comes up. The panel, network and clients are not code of the repository."
 },
 "C100": {
  "note": "No waker of the MQTT event loop is modelled except as spurious wake-ups, and the broker is taken to keep up. That waiting to send while a command is not complete, in the same task that polls the panel, would wait for ever is C51's refutation; C100_sleeps_well shows that it does not happen when clients wait for completion."
 },
 "C101": {
  "note": "A run is from one resumption of the task until it waits or has handled one step of connecting, one event or one publish; the real task goes on to the next without leaving poll. The MQTT event loop's own work, which shares the task, is not counted."
 },
 "C102": {
  "note": "As in C100 the broker is taken to keep up; C74 relates what a slow broker gets."
 },
 "C103": {
  "note": "As in C99 and C100: another command is asked for only when those before are complete (C51 says what happens otherwise), the broker keeps up, the panel sends no zone status report, and while the bridge connects no name, that it was not asked for, and the executor, select! and the network are fair."
 },
 "C104": {
  "note": "The claim is the division into cases; that every command is completed whatever the clients do is C104_all_completed_refuted. That an execution is in one case or the other is not stated as a disjunction, which would need classical logic: the two cases are two theorems. The rest as in C99 and C100.",
  "status": "proved"
 },
 "C105": {
  "note": "The claim is the division into cases; that everything is told whatever the clients do is C105_all_told_refuted. The rest as in C103 and C104.",
  "status": "proved"
 },
 "C106": {
  "note": "Names are those known when connected: they do not change afterwards. How lines are formatted is C79 and C94."
 },
 "C107": {
  "note": "When connecting panics is C37; the five reasons why it fails are those of C85."
 },
 "C108": {
  "note": "Wakers as in C77 and C95."
 },
 "C109": {
  "note": "A report is told with the lines of C106: one that is replaced while it is held has no lines of its own."
 },
 "C110": {
  "note": "A run is one poll of connecting or of panel.next(), with the body of the loop."
 },
 "C111": {
  "note": "The consequences of C07's frames for everything built on the decoder."
 },
 "C112": {
  "note": "Puts together C66-C69, C80, C84 and C99 over a model of main; clap's parsing for elkm1-cli is not modelled."
 },
 "C113": {
  "note": "int_in_range, fill_buffer and bytes of the arbitrary crate are modelled from its documentation."
 },
 "C114": {
  "note": "pretty_hex is not in the sandbox; its format is modelled from its documentation, whose example is C114_example. C84 is for any dump that tells its bytes; this one does."
 },
 "C115": {
  "note": "False in two respects. The announcement of an area does not limit the commands, so Home Assistant offers arm night, arm vacation, arm custom bypass and trigger, which are ignored (C115_areas_understood_refuted). The announcement of a zone leaves payload_on and payload_off at ON and OFF, while on, off and offline are published, so that no state of a zone is ever understood (C115_zones_announced_partial, C115_zone_states_understood_refuted). The rest is proved. Home Assistant's side (SpecHa.v) is from its documentation."
 },
 "C116": {
  "note": "False in the last respect: an area gone from the configuration stays announced, is shown as available whenever the bridge runs, keeps its last state for ever, and commands for it are not heard (C116_removed_area_stays for every such area, C116_nothing_left_over_refuted). True as long as nothing once announced leaves the configuration (C116_nothing_left_over_partial). The rest is proved. The broker (SpecRestart.v) is as in the MQTT standard: retained messages outlive the connection, and the last will is published when it ends."
 },
 "C117": {
  "note": "At rest: proved (C117_shows_the_truth). At every moment: false for areas (C117_areas_true_refuted) in two ways: a spurious report is shown if its correction is more than five seconds late, and is shown at once if it comes while another report, a right one, is being held back, since the next report after a held one is applied whatever it says. True for zones, and for areas if neither happens (C117_true_so_far_partial). What such a panel does is SpecTruth.v; it is an assumption about the panel, after the comments in state.rs."
 },
 "C118": {
  "note": "Release.v is a second model, of the functions containing arithmetic that may overflow or a debug assertion and of all their callers; the theorems say each equals the model used elsewhere on everything reachable, so all other theorems hold for release builds too. Deserialised values are not checked (C55), and with them the builds differ: C118_deserialised_differs."
 },
 "C119": {
  "note": "The bound is proved for connecting, for a connected panel and for the bridge, over the whole run and since any calm moment; C119_backlog_bounded_refuted shows that the number of misleading packets must enter the bound.",
  "status": "proved"
 },
 "C120": {
  "note": "C120_button assumes, as C100 does, that clients publish a command only when those before it are complete. C120_completed_was_sent assumes nothing."
 },
 "C121": {
  "note": "The grammar of literals is in SpecLiteral.v."
 },
 "C122": {
  "note": "UTF-8 is in SpecUtf8.v and SpecJson.v. An AsciiPacket that comes from serde is a String made by serde's own checks, so it is text too, but need not be printable (see C55)."
 },
 "C123": {
  "note": "Joins C115 and C117, whose specifications (SpecHa.v, SpecTruth.v) it uses. What is shown for an area is as in C47 (a fire alarm is not shown), and Home Assistant does not know the zones' states (C115)."
 },
 "C124": {
  "note": "The claim is the division into cases; that it is so without rests is C124_settles_refuted: poll_next looks at the timer of a held report only when no packet is there. The liveness counterpart of C117 and C123.",
  "status": "proved"
 },
 "C125": {
  "note": "False if a report is held back at the start (C125_follows_refuted): the event that announces its taking effect has no message, and its change gives the status before only, so that two panels that tell the same at first and in all events can differ. Otherwise proved (C125_follows_partial)."
 },
 "C126": {
  "note": ""
 },
 "C127": {
  "note": ""
 },
 "C128": {
  "note": "Zones in full. Areas: false as stated (C128_areas_apart_refuted, C128_alarm_refuted: a report that makes area 2 fully armed from disarmed is held back as a whole, and with it the alarm it reports for area 1). C128_area says exactly what is known of each area, held or not; C128_areas_apart_partial and C128_alarm_partial are the claims for when nothing is held back, and C128_nothing_held says when that is."
 },
 "C129": {
  "note": "What the panel reads is what this crate's own decoder finds in the bytes given to the socket, taken or still buffered (every first part of them). C129_last is for the step in which a write fails and the bridge ends. C99 and C104 say more for a panel that answers."
 },
 "C130": {
  "note": "False as stated (C130_order_refuted): with two areas of the same name, which is accepted (C68), it depends on the order which of them a command is for and which one's state is shown. Proved for distinct names of areas and of zones. A bridge that dies before it says that it is available may have published something else before, depending on the order; that it then dies for the same reason is proved. C130_file is for two files that say the same in different order."
 },
 "C131": {
  "note": "False as stated (C131_more_refuted): an added area with the name of another is shown on the same topic. Proved for distinct names of areas and of zones. The converse, that the larger runs whenever the smaller does, is false and not claimed: an added area or zone with a number out of range ends the bridge (C67)."
 },
 "C132": {
  "note": "False as stated: if it is the length, the decoder can be out of step for good (C132_wrong_byte_refuted: after one in a report that one of the zones 1 to 99 has changed, only invalid packets are made of all such reports, however many; C132_deaf_refuted: a connected panel takes no notice of any of them). Proved for every byte of an ASCII packet behind the length and for the data of RP packets other than DLE; for all bytes of ASCII packets, that what came before is received and that the first packet made of the frame is invalid."
 },
 "C133": {
  "note": "False for lost bytes (C133_lost_refuted, C133_deaf_refuted: whichever byte of a report that one of the zones 1 to 99 has changed is lost, all reports of this kind that follow are lost too, and a connected panel shows the zones as they were before) and for a zero added between two such reports (C133_added_refuted). Proved for a byte added to an ASCII packet behind its length and before its end. TCP neither loses nor adds bytes, but the serial line between the panel and its network adapter may."
 },
 "C134": {
  "note": "False if the panel goes without the connection being closed (C134_panel_refuted, C134_gone_refuted): there is no timeout, although the panel sends heartbeats; the bridge stays online with the states it has, for ever, and of all commands it gets at most one is even written. Proved: a closed or failed connection is noticed when the bridge is in its loop, and a failed write when a command is sent. While the bridge waits to send a second command it notices neither: C51_blocked_forever. Also false while connecting: C134_connect_refuted (Panel::connect waits for a reply for ever), C134_start_refuted (a bridge in that state never comes up and never writes the availability topic)."
 },
 "C135": {
  "note": "serde is not in the sandbox: how its derives read objects is modelled from its documentation (Serde.v). Which of several errors is reported is not modelled."
 },
 "C136": {
  "note": "False if an RP packet without room for its CRC in 1024 bytes is among what came before (C136_in_step_refuted, the stall of C07); proved for everything else. C136_less_refuted shows that 257 is exact."
 },
 "C137": {
  "note": "True for a wrong byte behind the two digits of the length (C137_wrong_partial). False for a lost byte (C137_lost_refuted) and for a wrong digit of the length (C137_wrong_refuted): with reports of changed zones only, no zone's topic changes any more, however many follow. TCP normally prevents such errors, but the panel may be behind a serial adapter. C136 says what brings the decoder back."
 },
 "C138": {
  "note": "False as stated: with the same topicPrefix configured, the serial number is in none of the topics but those of the announcements, so that one house's bridge says 'online' for the other's which has ended, and one DISARM disarms both (C138_refuted); and serial numbers with slashes can collide with the default prefixes as well (C138_default_refuted). Proved if neither prefix is within the other and the serial numbers have no slashes, which includes the default prefixes. The client identifiers, by which a broker tells clients apart, are not part of this."
 },
 "C139": {
  "note": "The code does not check names: it depends on the order (states are published before commands are subscribed to) and on the client, which refuses to publish to a topic with wildcards (MQTT 3.1.1, 3.3.2.1; rumqttc does) -- a hypothesis. The example shows that with a client that does not, an area called '+' would listen to the topics of all areas. Matching is specified from MQTT 3.1.1, 4.7, without its exception for topics that begin with '$', which can only concern filters with wildcards."
 },
 "C140": {
  "note": "False for messages published with the retain flag: the broker hands these to every client that subscribes, and the bridge looks at nothing but topic and payload, so one retained DISARM makes every later start of the bridge disarm the house (C140_kept_refuted for all configurations and executions, C140_once_refuted for any number of restarts). True if the broker keeps no message that asks for a command: then what a run gives to the panel was asked for by messages published while it ran, each command by one of its own, in order (C140_only_while_running_partial). What a broker does with retained messages is specified from MQTT 3.1.1, 3.3.1.3; Home Assistant does not set the flag unless told to."
 },
 "C141": {
  "note": "False: to_pkt writes as many digits as it takes and parse ignores what follows, so a zone status of 0x92 arrives as 9, keypad 127 as keypad 12, a timer of area 10 as one of area 1, and the year 2100 as 2010 with the flags behind it shifted (C141_arrives_unchanged_refuted). Exactly what arrives is proved: a message in range as itself, any other is refused or is of one of these five kinds and arrives as said there (C141_what_arrives_partial), and when it does (C141_always_mistaken_partial). Orders to arm, disarm or activate a task never arrive as another message, nor does another message arrive as such an order (C141_orders_never_mistaken_partial). The same holds for a release build, where the area of an order may wrap around (C141_release_partial)."
 },
 "C142": {
  "note": "False as soon as two areas have the same name, which nothing checks: every area of the name is published on the one topic and the last stays, while a command is taken by the first and the others are not looked at. So in every such configuration and at every moment the topic shows the state of another area than the one commanded (C142_other_area_refuted). Proved of all configurations: the state shown is the last area's (C142_shows_last_partial); every command taken from MQTT is sent for the first area of its name, once and in order, and nothing else is (C142_sent_to_first_partial), which leaves one command per message (C142_one_command). With distinct names the two are the same area (C142_same_area_partial). First and last are in the order in which the HashMap is gone through, which is the same for both loops in one run of the program."
 },
 "C143": {
  "note": "False when zones share a name, which nothing checks: of two zones called door one can be open while door is shown as off (C143_hidden_refuted). Proved of all configurations: the topic always shows the present state of some zone of that name, never an old or a made up one (C143_shows_one_of_them_partial), and after a change of a zone it is that zone's (C143_last_changed_partial). For distinct names see C49."
 },
 "C144": {
  "note": "False: events are published as indented JSON, in which each byte of an RP or an invalid packet takes a line of its own, of up to 11 or 13 characters. 1026 bytes of noise, in any number of pieces, are one invalid packet of 1024 bytes and so a text of over 13000 (C144_too_large_refuted); every invalid packet of 919 bytes or more and every RP packet with 923 or more data bytes of three digits is too large (C144_exceeds_refuted). The size of the text is proved exactly for all events of RP and invalid packets in all executions (C144_sizes_partial), and that up to 922 data bytes, or 750 bytes with a reason of at most 350 characters, it is within the limit (C144_fits_partial). For events of ASCII packets and of timers the claim holds: in all executions they take at most 8202 bytes, which leaves 2038 for the topic and the framing; the text of a message's error is at most 100 bytes (C144_ascii_fits_partial). That rumqttc has this limit and fails beyond it is from its documentation; its code is not in the sandbox, and in the model publishing succeeds."
 },
 "C145": {
  "note": "Which events can be too large is C144: those of RP and invalid packets. That rumqttc has this limit is from its documentation."
 },
 "C146": {
  "note": "What the payloads are is in C48, C49 and C58. Publications that the broker's side makes (the last will) are not the bridge's."
 }
}