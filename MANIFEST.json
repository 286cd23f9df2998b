{"claims": [
{"property": "C01", "status": "proved", "theorems": ["C01_decode_lossless", "C01_decode_never_panics"], "note": ""},
{"property": "C02", "status": "proved", "theorems": ["C02_try_from_exact", "C02_encode_decode", "C02_encode_decode_sequence"], "note": ""},
{"property": "C03", "status": "proved", "theorems": ["C03_prefix_waits"], "note": ""},
{"property": "C04", "status": "proved", "theorems": ["C04_connection_chunking_irrelevant", "C04_more_bytes_same_packet", "C04_chunking_irrelevant"], "note": "Decoder part in PropPkt.v, Connection part in PropConn.v."},
{"property": "C05", "status": "proved", "theorems": ["C05_decode_characterised", "C05_ascii_frames_exact", "C05_rp_frames_exact"], "note": ""},
{"property": "C06", "status": "proved", "theorems": ["C06_progress_and_bound", "C06_none_leaves_buffer", "C06_drain_at_most_n_packets"], "note": ""},
{"property": "C07", "status": "partial", "theorems": ["C07_bounded_buffering_refuted", "C07_stall_is_forever", "C07_bounded_buffering_partial", "C07_otherwise_a_packet_partial"], "note": "False as stated: RP frame with DLE ETX at offset 1021/1022 stalls (refuted with witness, stalls forever); the exact set of waiting buffers is proved."},
{"property": "C08", "status": "proved", "theorems": ["C08_ascii_single_corruption_detected"], "note": ""},
{"property": "C09", "status": "proved", "theorems": ["C09_crc_is_xmodem"], "note": ""},
{"property": "C10", "status": "proved", "theorems": ["C10_rp_body_corruption_detected", "C10_rp_crc_corruption_detected"], "note": ""},
{"property": "C11", "status": "proved", "theorems": ["C11_resync_general", "C11_resync_after_garbage"], "note": ""},
{"property": "C12", "status": "proved", "theorems": ["C12_packet_roundtrip"], "note": ""},
{"property": "C13", "status": "proved", "theorems": ["C13_wire_roundtrip", "C13_wire_prefix_free"], "note": ""},
{"property": "C14", "status": "proved", "theorems": ["C14_parse_never_panics"], "note": ""},
{"property": "C15", "status": "proved", "theorems": ["C15_parsed_well_formed", "C15_only_ascii_packets_are_messages", "C15_accessors_never_panic"], "note": ""},
{"property": "C16", "status": "proved", "theorems": ["C16_documented_format"], "note": ""},
{"property": "C17", "status": "proved", "theorems": ["C17_grammar_exact", "C17_grammar_unambiguous"], "note": ""},
{"property": "C18", "status": "proved", "theorems": ["C18_reencode_canonical", "C18_reencode_identity_refuted"], "note": "The canonical-form property is proved in full; the stronger identity reading mentioned in the statement is refuted with a witness (ZC+16900)."},
{"property": "C19", "status": "proved", "theorems": ["C19_replies_exact", "C19_requests_never_reply", "C19_replies_unambiguous"], "note": ""},
{"property": "C20", "status": "proved", "theorems": ["C20_code_from_number", "C20_code_from_number_no_panic", "C20_code_from_text", "C20_codes_are_numbers"], "note": ""},
{"property": "C21", "status": "proved", "theorems": ["C21_checked_numbers"], "note": ""},
{"property": "C22", "status": "proved", "theorems": ["C22_status_is_pair", "C22_status_code"], "note": ""},
{"property": "C23", "status": "partial", "theorems": ["C23_is_firing_refuted", "C23_is_firing_partial"], "note": "False as stated: FireAlarm is not 'firing' because the comparison is strict (msg.rs:1135-1137). Refuted with witness; exact characterisation proved (every alarm except FireAlarm)."},
{"property": "C24", "status": "proved", "theorems": ["C24_suspicious_exact", "C24_never_for_equal"], "note": ""},
{"property": "C25", "status": "proved", "theorems": ["C25_text_new", "C25_text_new_accepts"], "note": ""},
{"property": "C26", "status": "partial", "theorems": ["C26_iso_roundtrip_refuted", "C26_iso_accepts_exact", "C26_iso_roundtrip_partial", "C26_wire_dates_roundtrip"], "note": "False as stated: year 2100 is accepted and prints 20 characters. Refuted with witness; exact accepted strings proved, and the round trip for every other year."},
{"property": "C27", "status": "partial", "theorems": ["C27_iso_never_panics_refuted", "C27_iso_never_panics_partial", "C27_panics_exactly_partial"], "note": "False as stated: slicing a str inside a multi-byte character panics. Refuted with witness; no panic proved for ASCII strings and for every length other than 19; exactly which strings panic is proved (C27_panics_exactly_partial)."},
{"property": "C28", "status": "proved", "theorems": ["C28_events_are_the_packets"], "note": ""},
{"property": "C29", "status": "proved", "theorems": ["C29_zone_status_is_last_reported"], "note": ""},
{"property": "C30", "status": "proved", "theorems": ["C30_latest_report_in_effect_or_held", "C30_no_report_lost", "C30_only_events_change_arming"], "note": ""},
{"property": "C31", "status": "proved", "theorems": ["C31_arming_changes_announced"], "note": ""},
{"property": "C32", "status": "partial", "theorems": ["C32_zone_changes_announced_refuted", "C32_zone_changes_announced_partial", "C32_only_polls_change_zones"], "note": "False as stated: a ZS report after connect replaces all statuses and announces nothing (state.rs:233-235). Refuted with a reachable witness; proved for every poll that does not receive ZS, and what ZS does is stated exactly."},
{"property": "C33", "status": "proved", "theorems": ["C33_suspicious_report_hidden"], "note": ""},
{"property": "C34", "status": "proved", "theorems": ["C34_held_report_fires_after_5s"], "note": ""},
{"property": "C35", "status": "proved", "theorems": ["C35_accessors_safe"], "note": ""},
{"property": "C36", "status": "proved", "theorems": ["C36_connect_does_not_fail", "C36_connect_succeeds", "C36_connect_requests", "C36_connect_names", "C36_connect_states"], "note": ""},
{"property": "C37", "status": "partial", "theorems": ["C37_connect_never_panics_refuted", "C37_crash_exactly_partial", "C37_connect_never_panics_partial"], "note": "False as stated: a name reply (SD) whose number is beyond the table indexes out of bounds (state.rs send_sds). Refuted with a witness; exactly when a step crashes is proved, and that no packet sequence without such a reply crashes it."},
{"property": "C38", "status": "proved", "theorems": ["C38_names_do_not_change"], "note": ""},
{"property": "C39", "status": "proved", "theorems": ["C39_commands_complete_in_order", "C39_completed_by_its_reply"], "note": ""},
{"property": "C40", "status": "proved", "theorems": ["C40_only_panic", "C40_contract_never_panics"], "note": ""},
{"property": "C41", "status": "proved", "theorems": ["C41_last_waiter_woken"], "note": ""},
{"property": "C42", "status": "proved", "theorems": ["C42_wire_is_the_commands"], "note": ""},
{"property": "C43", "status": "partial", "theorems": ["C43_flush_exactly", "C43_next_flush_writes_it", "C43_flush_finishes", "C43_flush_again", "C43_flush_means_written_refuted", "C43_flush_means_written_partial"], "note": "False as stated: a matching message that arrives before the flush makes the panel Idle, so poll_flush answers Ready(Ok) with the command still buffered (state.rs:392-408). Refuted with a reachable witness; proved while the command is outstanding. Exactly: a finished flush has written everything, or there was no command outstanding and it did nothing; what was left is written by the next command's flush."},
{"property": "C44", "status": "partial", "theorems": ["C44_close_shuts_down_refuted", "C44_close_flushes_partial"], "note": "False as stated: Connection::poll_close calls poll_flush (tokio.rs:78-83), the socket is never shut down. Refuted with witness and for every reachable state; proved that everything is written."},
{"property": "C45", "status": "proved", "theorems": ["C45_every_poll_answers_what_is_owed", "C45_owed_is_determined", "C45_owed_packets"], "note": ""},
{"property": "C46", "status": "proved", "theorems": ["C46_other_packets_are_inert"], "note": ""},
{"property": "C47", "status": "partial", "theorems": ["C47_alarm_shown_refuted", "C47_alarm_shown_partial"], "note": "False as stated: a fire alarm is not shown as triggered (follows from C23). Refuted with a witness; exact characterisation proved, and the stated one for every other alarm."},
{"property": "C48", "status": "proved", "theorems": ["C48_area_topics_match"], "note": ""},
{"property": "C49", "status": "proved", "theorems": ["C49_zone_topics_match"], "note": ""},
{"property": "C50", "status": "proved", "theorems": ["C50_commands_sent", "C50_all_commands_sent", "C50_one_command_each"], "note": ""},
{"property": "C51", "status": "partial", "theorems": ["C51_blocked_forever", "C51_keeps_serving_crash_refuted", "C51_keeps_serving_block_refuted", "C51_stops_exactly_partial", "C51_send_fails_only_on_write_errors", "C51_progress_partial"], "note": "False as stated: a zone status report crashes the bridge (serialising it is a todo!()), and two commands in quick succession block it forever because the loop does not read the panel while it waits to send. Both refuted with reachable witnesses; blocked-forever proved for every such state, exactly which inputs stop it proved, and progress in every other state."},
{"property": "C52", "status": "proved", "theorems": ["C52_online_after_states", "C52_goes_online"], "note": ""},
{"property": "C53", "status": "proved", "theorems": ["C53_read_characterised", "C53_read_accounts_for_every_byte"], "note": ""},
{"property": "C54", "status": "proved", "theorems": ["C54_watch_logs_the_changes", "C54_whole_log"], "note": ""},
{"property": "C55", "status": "partial", "theorems": ["C55_deserialised_in_range_refuted", "C55_unchecked_values_misbehave_refuted", "C55_wrappers_exact_partial", "C55_messages_exact_partial"], "note": "False as stated: the derived Deserialize of the wrapper types checks nothing. Refuted with a witness for every type, and with the panics that follow; exactly what each wrapper and each message accepts is proved."},
{"property": "C56", "status": "partial", "theorems": ["C56_event_roundtrip_refuted", "C56_event_roundtrip_from_reader_refuted", "C56_event_roundtrip_partial"], "note": "False as stated: serialising a zone status report is a todo!() and dates are read as borrowed strings. Refuted with reachable witnesses; proved for every other event a panel can emit, with the exact set readable from a reader."},
{"property": "C57", "status": "proved", "theorems": ["C57_areas_announced", "C57_zones_announced"], "note": ""},
{"property": "C58", "status": "proved", "theorems": ["C58_events_published"], "note": ""},
{"property": "C59", "status": "partial", "theorems": ["C59_code_only_in_completions_partial", "C59_code_not_published_refuted", "C59_code_kept_without_commands_partial"], "note": "False as stated: the event that completes an arm command carries the command with its code, and is published. Refuted with a reachable witness. Proved for every execution: two runs that differ only in the code publish the same things except for the code inside the command an event completes; and without commands nothing published depends on the code."},
{"property": "C60", "status": "proved", "theorems": ["C60_pkt_target_passes", "C60_depkt_target_passes", "C60_msg_target_passes"], "note": ""},
{"property": "C61", "status": "partial", "theorems": ["C61_every_message_tried_refuted", "C61_tried_exactly_partial", "C61_tried_reaches_assertion"], "note": "False as stated: the generator of arm codes shifts its bytes by 24 and 16 bits instead of 16 and 8, so it makes only 4096 of the 1000000 codes (code 000256 never). Refuted with a witness; the exact set of messages it makes is proved."},
{"property": "C62", "status": "partial", "theorems": ["C62_messages_written_exactly", "C62_events_written", "C62_state_written", "C62_commands_written", "C62_deserialised_written_refuted"], "note": "False as stated for deserialised messages: arm codes and texts that are not UTF-8 and zone statuses of 16 and more can be read from JSON and panic when written. Refuted with witnesses. Proved: exactly which messages can be written, and that every event, state and checked command can."},
{"property": "C63", "status": "proved", "theorems": ["C63_log_identifies_message", "C63_log_identifies_event", "C63_log_identifies_state", "C63_numbers_written"], "note": ""},
{"property": "C64", "status": "partial", "theorems": ["C64_names_listed_refuted", "C64_names_listed_partial", "C64_empty_exactly_partial", "C64_zones_listed"], "note": "False as stated: a name that starts with a space counts as empty and is left out. Refuted with a witness. Proved: exactly the names that start with a space are left out (all empty ones among them), and zone status reports list exactly the configured zones."},
{"property": "C65", "status": "partial", "theorems": ["C65_names_camel_refuted", "C65_names_partial", "C65_message_names_partial", "C65_message_kinds"], "note": "False as stated: the clock (RtcData) has no rename_all, so clock_display and date_display keep their snake_case names. Refuted with a heartbeat; proved with that exception for every message and every event of a reachable panel."},
{"property": "C66", "status": "proved", "theorems": ["C66_configuration_read", "C66_configuration_accepted", "C66_set_up"], "note": ""},
{"property": "C67", "status": "partial", "theorems": ["C67_rejected_early_refuted", "C67_checked_when_connected_partial", "C67_never_runs_badly_partial"], "note": "False as stated: an area number no panel has is found out only after the area has been announced (retained) to Home Assistant. Refuted with a witness. Proved: the bridge comes up exactly if the configuration is in range and the client accepts it, ends otherwise, and never runs or says it is online with a bad configuration."},
{"property": "C68", "status": "partial", "theorems": ["C68_own_topics_refuted", "C68_own_topics_partial", "C68_only_these_topics"], "note": "False as stated: two areas (or zones) of the same name are accepted and share their topics. Refuted with a witness. Proved for distinct names, whatever the names and prefixes; that these are the only topics is proved for all configurations."},
{"property": "C69", "status": "partial", "theorems": ["C69_availability_retained", "C69_available_refuted", "C69_offline_is_final_partial"], "note": "False as stated: a bridge blocked by two commands in quick succession (C51) stays online for ever. Refuted with a witness. What the availability topic holds in every state is proved exactly."},
{"property": "C70", "status": "partial", "theorems": ["C70_accepted_iff", "C70_errors_detected_partial", "C70_distance", "C70_one_bit_refuted"], "note": "False as stated: one wrong bit can turn a body byte 17 into DLE and end the frame where the body happens to hold the right checksum; refuted with such a frame for (almost) every packet. Proved for errors that change body and checksum bits without changing the framing: accepted exactly if the wrong bits are a multiple of the generator polynomial, hence none of the named kinds; frames of equal length differ in at least four bits."},
{"property": "C71", "status": "partial", "theorems": ["C71_takes_effect_refuted", "C71_takes_effect_partial", "C71_lost_at_the_end_refuted"], "note": "False as stated, in two ways: the timer is looked at only when no packet is waiting, so unrelated packets can hide the report for ever; and when the connection ends the report is lost. Refuted with witnesses (for all later times, and all later calls). Proved: it takes effect at the first poll after five seconds that finds no packet, which is the poll after the last packet received."},
{"property": "C72", "status": "partial", "theorems": ["C72_waiter_learns_of_the_end_refuted", "C72_only_a_reply_wakes", "C72_reply_wakes_partial"], "note": "False as stated: at the end of the stream nobody is woken, and poll_ready answers Pending for ever (refuted: for all later calls). Proved: only a reply ends the wait; once a reply has been received, as many polls as packets received complete the command and wake the last waiter, and poll_ready is ready."},
{"property": "C73", "status": "partial", "theorems": ["C73_accepted_iff", "C73_two_bits", "C73_one_direction_partial", "C73_reordered_refuted", "C73_arm_request_refuted"], "note": "C73_accepted_iff is exact for frames with intact length and CRLF (C08 covers one wrong byte anywhere). Partial because the general claim is false: C73_reordered_refuted (every reordering of every body passes) and C73_arm_request_refuted (for every arm request whose level and area digits can be exchanged)."},
{"property": "C74", "status": "partial", "theorems": ["C74_same_requests", "C74_at_most_ten", "C74_all_delivered", "C74_made_before_the_end", "C74_topics_match_when_idle", "C74_stands_still", "C74_end_is_final", "C74_lost_at_the_end_refuted"], "note": "Refinement of the bridge model by one with the bounded channel (Queue.v). Partial because what is in the channel at the end of the process is lost (C74_lost_at_the_end_refuted, a witness; C74_end_is_final for all continuations)."},
{"property": "C75", "status": "proved", "theorems": ["C75_sending_does_not_change_what_is_reported", "C75_as_if_nothing_was_sent", "C75_receiving_does_not_change_what_is_written"], "note": "Non-interference, by simulation: panels that differ only in the write half and the command state."},
{"property": "C76", "status": "proved", "theorems": ["C76_only_five_second_intervals_matter", "C76_the_zero_of_the_clock_does_not_matter"], "note": "Relational proof; the times are tokio's Instants in milliseconds."},
{"property": "C77", "status": "proved", "theorems": ["C77_receiver_is_woken", "C77_arrival_wakes"], "note": "All histories; the socket and the timer keep the last waker given to them, as tokio's do."},
{"property": "C78", "status": "partial", "theorems": ["C78_sender_is_woken_partial", "C78_sender_is_woken_refuted", "C78_flusher_is_woken_refuted"], "note": "False for poll_ready and poll_flush (refuted): when they wait for the socket, the waker is not stored in CmdState, so a reply that arrives before the command is written completes it and wakes nobody. Proved: this is the only exception, it cannot happen with poll_close, and the task is then still woken as soon as the socket takes a byte."},
{"property": "C79", "status": "proved", "theorems": ["C79_text_denotes", "C79_published_text", "C79_events_text"], "note": "The grammar of RFC 8259 is stated as relations (SpecJson.v); serde_json's writer and reader are modelled from its documentation (JsonText.v), as it is not in the sandbox."},
{"property": "C80", "status": "proved", "theorems": ["C80_reads_json", "C80_one_meaning", "C80_otherwise_an_error", "C80_configuration_text"], "note": "serde_json's reader is modelled from its documentation (JsonText.v states the simplifications)."},
{"property": "C81", "status": "proved", "theorems": ["C81_reason_exact", "C81_checksum_cures", "C81_crc_cures", "C81_try_from_reasons"], "note": "SpecReason.v gives the texts and when each is true, without the decoder; C81_reason_exact says the decoder's text is exactly that one."},
{"property": "C82", "status": "partial", "theorems": ["C82_malformed_exact", "C82_one_reason", "C82_iso_exact", "C82_prints", "C82_lengths_true_partial", "C82_sd_length_text_refuted", "C82_range_text_refuted"], "note": "The claim about lengths is false of SD replies (C82_sd_length_text_refuted), proved for all other commands (C82_lengths_true_partial); the range [0, 255) in the texts about numbers excludes 255, which is accepted (C82_range_text_refuted). Dates with multi-byte characters panic (C27) and are left out."},
{"property": "C83", "status": "proved", "theorems": ["C83_topics_follow_the_wire"], "note": "The composition of C28, C29, C30, C48, C49 and C58 into one statement with a single split of the byte stream."},
{"property": "C84", "status": "proved", "theorems": ["C84_text_identifies_message", "C84_text_identifies_state", "C84_text_identifies_event", "C84_output_identifies_file"], "note": "Over the characters (FmtText.v: std's builders, PadAdapter and str's escapes), where C63 is over the structure. hex_dump() is a parameter; dump_ok (SpecLog.v) is what is assumed of it, for packets only. Error texts are shown printable from C81's and C82's characterisations."},
{"property": "C85", "status": "proved", "theorems": ["C85_fails_only_because", "C85_ends", "C85_ended_early"], "note": "fails_because is stated over the history up to the failing step. The texts of tokio_util's own two errors are taken from its documentation."},
{"property": "C86", "status": "proved", "theorems": ["C86_connecting_recorded", "C86_session_recorded"], "note": "The log is modelled as level, text and fields of each tracing call; time stamps, target and span are not modelled."},
{"property": "C87", "status": "proved", "theorems": ["C87_poll_logs_exactly", "C87_arming_lines_in_order", "C87_deferred_was_announced"], "note": "A report on hold that is dropped by one that is not suspicious leaves no line (Story_dropped)."},
{"property": "C88", "status": "proved", "theorems": ["C88_bridge_log", "C88_message_lines"], "note": "How rumqttc writes a Publish, and bytes a payload, is a parameter (by topic and payload). The TRACE line for each notification of the MQTT event loop (main.rs:335) is not modelled."},
{"property": "C89", "status": "partial", "theorems": ["C89_code_not_logged_refuted", "C89_code_only_in_commands_partial", "C89_default_log_partial"], "note": "False in full (C89_code_not_logged_refuted). Missing from the partial theorems: the lines excepted."},
{"property": "C90", "status": "proved", "theorems": ["C90_connecting_log"], "note": "The change shown with a message that came is not specified here (see C29 to C32)."},
{"property": "C91", "status": "partial", "theorems": ["C91_unsent_bounded_partial", "C91_all_written_when_idle", "C91_unsent_bounded_refuted", "C91_connecting_unsent", "C91_bridge_unsent", "C91_unread_bounded_partial"], "note": "False in full (C91_unsent_bounded_refuted, and C07). Missing from the partial theorems: panels whose replies come before the command is written, and the frames of C07. Only bytes are counted; the messages from MQTT that wait in the bridge's channel are not bounded (see C51)."},
{"property": "C92", "status": "proved", "theorems": ["C92_every_answer", "C92_received_in_order", "C92_nothing_lost", "C92_all_can_be_received"], "note": "The line is reliable (no read errors) and a dropped end ends the stream; that TCP may reset it instead is not modelled."},
{"property": "C93", "status": "proved", "theorems": ["C93_completed_in_order", "C93_all_completed", "C93_finishes", "C93_completed_was_received"], "note": "The caller, the panel and the network are specification (SpecSend.v). The panel p may be any one that has seen nothing but data and has no command outstanding; the packets under way at the start are whole ones."},
{"property": "C94", "status": "proved", "theorems": ["C94_whole_log", "C94_lines_by_kind", "C94_change_identified"], "note": "Lines are level, text and fields; time stamp, thread name, target and span, added by tracing-subscriber, are not modelled."},
{"property": "C95", "status": "proved", "theorems": ["C95_no_lost_wakeup", "C95_woken", "C95_connect_succeeds", "C95_as_if_always_run", "C95_ends"], "note": "The socket wakes the last task that found it not ready, as Tokio documents; any time may pass before a task that is due runs. For the end of connecting, nothing arrives after the connection ended or, for a failed read, after some point."},
{"property": "C96", "status": "proved", "theorems": ["C96_equality", "C96_equal_means_same", "C96_same_bytes", "C96_reasons_can_differ", "C96_but_for_the_reason", "C96_names", "C96_messages", "C96_messages_by_packet"], "note": "C96_reasons_can_differ is a witness of the exception."},
{"property": "C97", "status": "proved", "theorems": ["C97_no_lost_wakeup", "C97_woken", "C97_all_completed", "C97_finishes"], "note": "The one lost wake-up of C78 (a command completed before it is written) needs a full socket, so it does no harm here. The caller is not code of the repository."},
{"property": "C98", "status": "proved", "theorems": ["C98_keeps_serving", "C98_in_order", "C98_published", "C98_completed_was_received", "C98_all_completed"], "note": "The conditions are needed: without them C51's witnesses (two commands in quick succession, a zone status report, a payload that is not UTF-8) stop the bridge. The panel, network and clients are not code of the repository."},
{"property": "C99", "status": "proved", "theorems": ["C99_never_stops", "C99_in_order", "C99_what_is_written", "C99_published", "C99_all_completed"], "note": "C36 and C98 put together, with the handover between them: nothing under way is lost or read twice when the bridge comes up. The panel, network and clients are not code of the repository."},
{"property": "C100", "status": "proved", "theorems": ["C100_is_the_bridge", "C100_no_lost_wakeup", "C100_is_woken", "C100_is_the_program", "C100_sleeps_well", "C100_all_completed"], "note": "No waker of the MQTT event loop is modelled except as spurious wake-ups, and the broker is taken to keep up. That waiting to send while a command is not complete, in the same task that polls the panel, would wait for ever is C51's refutation; C100_sleeps_well shows that it does not happen when clients wait for completion."},
{"property": "C101", "status": "proved", "theorems": ["C101_few_runs", "C101_comes_to_rest"], "note": "A run is from one resumption of the task until it waits or has handled one step of connecting, one event or one publish; the real task goes on to the next without leaving poll. The MQTT event loop's own work, which shares the task, is not counted."},
{"property": "C102", "status": "proved", "theorems": ["C102_up_to_date", "C102_gets_there"], "note": "As in C100 the broker is taken to keep up; C74 relates what a slow broker gets."},
{"property": "C103", "status": "proved", "theorems": ["C103_sends_packets", "C103_all_told"], "note": "As in C99 and C100: another command is asked for only when those before are complete (C51 says what happens otherwise), the broker keeps up, the panel sends no zone status report, and while the bridge connects no name, that it was not asked for, and the executor, select! and the network are fair."},
{"property": "C104", "status": "proved", "theorems": ["C104_in_line", "C104_how_they_overlap", "C104_overlap_is_final", "C104_all_completed", "C104_woken_in_line", "C104_woken_overlap_is_final", "C104_woken_all_completed", "C104_all_completed_refuted"], "note": "The claim is the division into cases; that every command is completed whatever the clients do is C104_all_completed_refuted. That an execution is in one case or the other is not stated as a disjunction, which would need classical logic: the two cases are two theorems. The rest as in C99 and C100."},
{"property": "C105", "status": "proved", "theorems": ["C105_sends_packets", "C105_always_shows", "C105_all_told", "C105_all_told_refuted"], "note": "The claim is the division into cases; that everything is told whatever the clients do is C105_all_told_refuted. The rest as in C103 and C104."},
{"property": "C106", "status": "proved", "theorems": ["C106_what_is_told", "C106_lines_determined"], "note": "Names are those known when connected: they do not change afterwards. How lines are formatted is C79 and C94."},
{"property": "C107", "status": "proved", "theorems": ["C107_ends_only_because", "C107_ends", "C107_held_report_lost"], "note": "When connecting panics is C37; the five reasons why it fails are those of C85."},
{"property": "C108", "status": "proved", "theorems": ["C108_is_watch", "C108_no_lost_wakeup", "C108_woken", "C108_ends"], "note": "Wakers as in C77 and C95."},
{"property": "C109", "status": "proved", "theorems": ["C109_connects", "C109_tells", "C109_all_told"], "note": "A report is told with the lines of C106: one that is replaced while it is held has no lines of its own."},
{"property": "C110", "status": "proved", "theorems": ["C110_few_runs", "C110_comes_to_rest"], "note": "A run is one poll of connecting or of panel.next(), with the body of the loop."},
{"property": "C111", "status": "proved", "theorems": ["C111_decoder_waits_forever", "C111_nothing_more", "C111_when_deaf", "C111_bridge", "C111_watch"], "note": "The consequences of C07's frames for everything built on the decoder."},
{"property": "C112", "status": "proved", "theorems": ["C112_starts", "C112_what_the_broker_gets", "C112_serves", "C112_read"], "note": "Puts together C66-C69, C80, C84 and C99 over a model of main; clap's parsing for elkm1-cli is not modelled."},
{"property": "C113", "status": "proved", "theorems": ["C113_hints_right", "C113_short_input"], "note": "int_in_range, fill_buffer and bytes of the arbitrary crate are modelled from its documentation."},
{"property": "C114", "status": "proved", "theorems": ["C114_dump_layout", "C114_dump_identifies", "C114_invalid_packet_shown", "C114_rp_packet_shown", "C114_log_identifies"], "note": "pretty_hex is not in the sandbox; its format is modelled from its documentation, whose example is C114_example. C84 is for any dump that tells its bytes; this one does."},
{"property": "C115", "status": "partial", "theorems": ["C115_areas_understood_partial", "C115_areas_understood_refuted", "C115_zones_announced_partial", "C115_unavailable_when_it_ends", "C115_zone_states_understood_refuted"], "note": "False in two respects. The announcement of an area does not limit the commands, so Home Assistant offers arm night, arm vacation, arm custom bypass and trigger, which are ignored (C115_areas_understood_refuted). The announcement of a zone leaves payload_on and payload_off at ON and OFF, while on, off and offline are published, so that no state of a zone is ever understood (C115_zones_announced_partial, C115_zone_states_understood_refuted). The rest is proved. Home Assistant's side (SpecHa.v) is from its documentation."},
{"property": "C116", "status": "partial", "theorems": ["C116_from_the_configurations", "C116_unavailable_between", "C116_available_while_running", "C116_online_means_fresh", "C116_what_is_kept", "C116_removed_area_stays", "C116_nothing_left_over_refuted", "C116_nothing_left_over_partial"], "note": "False in the last respect: an area gone from the configuration stays announced, is shown as available whenever the bridge runs, keeps its last state for ever, and commands for it are not heard (C116_removed_area_stays for every such area, C116_nothing_left_over_refuted). True as long as nothing once announced leaves the configuration (C116_nothing_left_over_partial). The rest is proved. The broker (SpecRestart.v) is as in the MQTT standard: retained messages outlive the connection, and the last will is published when it ends."},
{"property": "C117", "status": "partial", "theorems": ["C117_true_so_far_partial", "C117_shows_the_truth", "C117_areas_true_refuted"], "note": "At rest: proved (C117_shows_the_truth). At every moment: false for areas (C117_areas_true_refuted) in two ways: a spurious report is shown if its correction is more than five seconds late, and is shown at once if it comes while another report, a right one, is being held back, since the next report after a held one is applied whatever it says. True for zones, and for areas if neither happens (C117_true_so_far_partial). What such a panel does is SpecTruth.v; it is an assumption about the panel, after the comments in state.rs."},
{"property": "C118", "status": "proved", "theorems": ["C118_decode", "C118_encode", "C118_encode_only_when", "C118_parse", "C118_to_pkt", "C118_deserialised_differs", "C118_conn_next", "C118_panel", "C118_connect", "C118_watch", "C118_bridge"], "note": "Release.v is a second model, of the functions containing arithmetic that may overflow or a debug assertion and of all their callers; the theorems say each equals the model used elsewhere on everything reachable, so all other theorems hold for release builds too. Deserialised values are not checked (C55), and with them the builds differ: C118_deserialised_differs."},
{"property": "C119", "status": "proved", "theorems": ["C119_connecting", "C119_backlog", "C119_not_overrun", "C119_since_calm", "C119_bridge", "C119_bridge_since_calm", "C119_backlog_bounded_refuted"], "note": "The bound is proved for connecting, for a connected panel and for the bridge, over the whole run and since any calm moment; C119_backlog_bounded_refuted shows that the number of misleading packets must enter the bound."},
{"property": "C120", "status": "proved", "theorems": ["C120_completed_was_sent", "C120_button"], "note": "C120_button assumes, as C100 does, that clients publish a command only when those before it are complete. C120_completed_was_sent assumes nothing."},
{"property": "C121", "status": "proved", "theorems": ["C121_one_reading", "C121_bad_bytes", "C121_bad_text", "C121_logged_text"], "note": "The grammar of literals is in SpecLiteral.v."},
{"property": "C122", "status": "proved", "theorems": ["C122_checked_is_exact", "C122_unchecked_is_sound", "C122_packets_are_text"], "note": "UTF-8 is in SpecUtf8.v and SpecJson.v. An AsciiPacket that comes from serde is a String made by serde's own checks, so it is text too, but need not be printable (see C55)."},
{"property": "C123", "status": "proved", "theorems": ["C123_entities", "C123_shows_the_house"], "note": "Joins C115 and C117, whose specifications (SpecHa.v, SpecTruth.v) it uses. What is shown for an area is as in C47 (a fire alarm is not shown), and Home Assistant does not know the zones' states (C115)."},
{"property": "C124", "status": "proved", "theorems": ["C124_settles", "C124_house_settles", "C124_settles_refuted"], "note": "The claim is the division into cases; that it is so without rests is C124_settles_refuted: poll_next looks at the timer of a held report only when no packet is there. The liveness counterpart of C117 and C123."},
{"property": "C125", "status": "partial", "theorems": ["C125_stays_right", "C125_follows_partial", "C125_catches_up", "C125_follows_refuted", "C125_from_the_event_topic"], "note": "False if a report is held back at the start (C125_follows_refuted): the event that announces its taking effect has no message, and its change gives the status before only, so that two panels that tell the same at first and in all events can differ. Otherwise proved (C125_follows_partial)."},
{"property": "C126", "status": "proved", "theorems": ["C126_same_packets", "C126_agree", "C126_bridges_agree"], "note": ""},
{"property": "C127", "status": "proved", "theorems": ["C127_connection", "C127_recording", "C127_longer"], "note": ""},
{"property": "C128", "status": "partial", "theorems": ["C128_zone", "C128_area", "C128_areas_apart_partial", "C128_nothing_held", "C128_areas_apart_refuted", "C128_alarm_partial", "C128_alarm_refuted"], "note": "Zones in full. Areas: false as stated (C128_areas_apart_refuted, C128_alarm_refuted: a report that makes area 2 fully armed from disarmed is held back as a whole, and with it the alarm it reports for area 1). C128_area says exactly what is known of each area, held or not; C128_areas_apart_partial and C128_alarm_partial are the claims for when nothing is held back, and C128_nothing_held says when that is."},
{"property": "C129", "status": "proved", "theorems": ["C129_received", "C129_last", "C129_each", "C129_unasked", "C129_reader", "C129_sender"], "note": "What the panel reads is what this crate's own decoder finds in the bytes given to the socket, taken or still buffered (every first part of them). C129_last is for the step in which a write fails and the bridge ends. C99 and C104 say more for a panel that answers."},
{"property": "C130", "status": "partial", "theorems": ["C130_order_refuted", "C130_order_partial", "C130_retained_partial", "C130_file"], "note": "False as stated (C130_order_refuted): with two areas of the same name, which is accepted (C68), it depends on the order which of them a command is for and which one's state is shown. Proved for distinct names of areas and of zones. A bridge that dies before it says that it is available may have published something else before, depending on the order; that it then dies for the same reason is proved. C130_file is for two files that say the same in different order."},
{"property": "C131", "status": "partial", "theorems": ["C131_more_refuted", "C131_more_partial", "C131_retained_partial"], "note": "False as stated (C131_more_refuted): an added area with the name of another is shown on the same topic. Proved for distinct names of areas and of zones. The converse, that the larger runs whenever the smaller does, is false and not claimed: an added area or zone with a number out of range ends the bridge (C67)."},
{"property": "C132", "status": "partial", "theorems": ["C132_one_packet_partial", "C132_rp_packet_partial", "C132_before_partial", "C132_wrong_byte_refuted", "C132_deaf_refuted"], "note": "False as stated: if it is the length, the decoder can be out of step for good (C132_wrong_byte_refuted: after one in a report that one of the zones 1 to 99 has changed, only invalid packets are made of all such reports, however many; C132_deaf_refuted: a connected panel takes no notice of any of them). Proved for every byte of an ASCII packet behind the length and for the data of RP packets other than DLE; for all bytes of ASCII packets, that what came before is received and that the first packet made of the frame is invalid."},
{"property": "C133", "status": "partial", "theorems": ["C133_lost_refuted", "C133_deaf_refuted", "C133_added_partial", "C133_added_refuted"], "note": "False for lost bytes (C133_lost_refuted, C133_deaf_refuted: whichever byte of a report that one of the zones 1 to 99 has changed is lost, all reports of this kind that follow are lost too, and a connected panel shows the zones as they were before) and for a zero added between two such reports (C133_added_refuted). Proved for a byte added to an ASCII packet behind its length and before its end. TCP neither loses nor adds bytes, but the serial line between the panel and its network adapter may."},
{"property": "C134", "status": "partial", "theorems": ["C134_panel_refuted", "C134_connect_refuted", "C134_gone_refuted", "C134_start_refuted", "C134_noticed_partial", "C134_noticed_sending_partial"], "note": "False if the panel goes without the connection being closed (C134_panel_refuted, C134_gone_refuted): there is no timeout, although the panel sends heartbeats; the bridge stays online with the states it has, for ever, and of all commands it gets at most one is even written. Proved: a closed or failed connection is noticed when the bridge is in its loop, and a failed write when a command is sent. While the bridge waits to send a second command it notices neither: C51_blocked_forever. Also false while connecting: C134_connect_refuted (Panel::connect waits for a reply for ever), C134_start_refuted (a bridge in that state never comes up and never writes the availability topic)."},
{"property": "C135", "status": "proved", "theorems": ["C135_events", "C135_messages", "C135_packets", "C135_published", "C135_variant_alone"], "note": "serde is not in the sandbox: how its derives read objects is modelled from its documentation (Serde.v). Which of several errors is reported is not modelled."},
{"property": "C136", "status": "partial", "theorems": ["C136_in_step_partial", "C136_ascii_in_step_partial", "C136_connection_partial", "C136_in_step_refuted", "C136_less_refuted"], "note": "False if an RP packet without room for its CRC in 1024 bytes is among what came before (C136_in_step_refuted, the stall of C07); proved for everything else. C136_less_refuted shows that 257 is exact."},
{"property": "C137", "status": "partial", "theorems": ["C137_wrong_partial", "C137_lost_refuted", "C137_wrong_refuted"], "note": "True for a wrong byte behind the two digits of the length (C137_wrong_partial). False for a lost byte (C137_lost_refuted) and for a wrong digit of the length (C137_wrong_refuted): with reports of changed zones only, no zone's topic changes any more, however many follow. TCP normally prevents such errors, but the panel may be behind a serial adapter. C136 says what brings the decoder back."},
{"property": "C138", "status": "partial", "theorems": ["C138_not_delivered_partial", "C138_topics_partial", "C138_default_partial", "C138_broker_partial", "C138_commands_partial", "C138_refuted", "C138_default_refuted"], "note": "False as stated: with the same topicPrefix configured, the serial number is in none of the topics but those of the announcements, so that one house's bridge says 'online' for the other's which has ended, and one DISARM disarms both (C138_refuted); and serial numbers with slashes can collide with the default prefixes as well (C138_default_refuted). Proved if neither prefix is within the other and the serial numbers have no slashes, which includes the default prefixes. The client identifiers, by which a broker tells clients apart, are not part of this."},
{"property": "C139", "status": "proved", "theorems": ["C139_listens", "C139_all_of_them", "C139_wildcard_in_name"], "note": "The code does not check names: it depends on the order (states are published before commands are subscribed to) and on the client, which refuses to publish to a topic with wildcards (MQTT 3.1.1, 3.3.2.1; rumqttc does) -- a hypothesis. The example shows that with a client that does not, an area called '+' would listen to the topics of all areas. Matching is specified from MQTT 3.1.1, 4.7, without its exception for topics that begin with '$', which can only concern filters with wildcards."},
{"property": "C140", "status": "partial", "theorems": ["C140_kept_refuted", "C140_once_refuted", "C140_only_while_running_partial"], "note": "False for messages published with the retain flag: the broker hands these to every client that subscribes, and the bridge looks at nothing but topic and payload, so one retained DISARM makes every later start of the bridge disarm the house (C140_kept_refuted for all configurations and executions, C140_once_refuted for any number of restarts). True if the broker keeps no message that asks for a command: then what a run gives to the panel was asked for by messages published while it ran, each command by one of its own, in order (C140_only_while_running_partial). What a broker does with retained messages is specified from MQTT 3.1.1, 3.3.1.3; Home Assistant does not set the flag unless told to."},
{"property": "C141", "status": "partial", "theorems": ["C141_what_arrives_partial", "C141_always_mistaken_partial", "C141_orders_never_mistaken_partial", "C141_release_partial", "C141_arrives_unchanged_refuted"], "note": "False: to_pkt writes as many digits as it takes and parse ignores what follows, so a zone status of 0x92 arrives as 9, keypad 127 as keypad 12, a timer of area 10 as one of area 1, and the year 2100 as 2010 with the flags behind it shifted (C141_arrives_unchanged_refuted). Exactly what arrives is proved: a message in range as itself, any other is refused or is of one of these five kinds and arrives as said there (C141_what_arrives_partial), and when it does (C141_always_mistaken_partial). Orders to arm, disarm or activate a task never arrive as another message, nor does another message arrive as such an order (C141_orders_never_mistaken_partial). The same holds for a release build, where the area of an order may wrap around (C141_release_partial)."},
{"property": "C142", "status": "partial", "theorems": ["C142_shows_last_partial", "C142_sent_to_first_partial", "C142_one_command", "C142_other_area_refuted", "C142_same_area_partial"], "note": "False as soon as two areas have the same name, which nothing checks: every area of the name is published on the one topic and the last stays, while a command is taken by the first and the others are not looked at. So in every such configuration and at every moment the topic shows the state of another area than the one commanded (C142_other_area_refuted). Proved of all configurations: the state shown is the last area's (C142_shows_last_partial); every command taken from MQTT is sent for the first area of its name, once and in order, and nothing else is (C142_sent_to_first_partial), which leaves one command per message (C142_one_command). With distinct names the two are the same area (C142_same_area_partial). First and last are in the order in which the HashMap is gone through, which is the same for both loops in one run of the program."},
{"property": "C143", "status": "partial", "theorems": ["C143_shows_one_of_them_partial", "C143_last_changed_partial", "C143_hidden_refuted"], "note": "False when zones share a name, which nothing checks: of two zones called door one can be open while door is shown as off (C143_hidden_refuted). Proved of all configurations: the topic always shows the present state of some zone of that name, never an old or a made up one (C143_shows_one_of_them_partial), and after a change of a zone it is that zone's (C143_last_changed_partial). For distinct names see C49."},
{"property": "C144", "status": "partial", "theorems": ["C144_sizes_partial", "C144_fits_partial", "C144_exceeds_refuted", "C144_too_large_refuted", "C144_ascii_fits_partial"], "note": "False: events are published as indented JSON, in which each byte of an RP or an invalid packet takes a line of its own, of up to 11 or 13 characters. 1026 bytes of noise, in any number of pieces, are one invalid packet of 1024 bytes and so a text of over 13000 (C144_too_large_refuted); every invalid packet of 919 bytes or more and every RP packet with 923 or more data bytes of three digits is too large (C144_exceeds_refuted). The size of the text is proved exactly for all events of RP and invalid packets in all executions (C144_sizes_partial), and that up to 922 data bytes, or 750 bytes with a reason of at most 350 characters, it is within the limit (C144_fits_partial). For events of ASCII packets and of timers the claim holds: in all executions they take at most 8202 bytes, which leaves 2038 for the topic and the framing; the text of a message's error is at most 100 bytes (C144_ascii_fits_partial). That rumqttc has this limit and fails beyond it is from its documentation; its code is not in the sandbox, and in the model publishing succeeds."},
{"property": "C145", "status": "proved", "theorems": ["C145_states_and_announcements_fit", "C145_subscription_fits", "C145_only_events_can_be_too_large"], "note": "Which events can be too large is C144: those of RP and invalid packets. That rumqttc has this limit is from its documentation."},
{"property": "C146", "status": "proved", "theorems": ["C146_event_by_event", "C146_how_many"], "note": "What the payloads are is in C48, C49 and C58. Publications that the broker's side makes (the last will) are not the bridge's."}
]}
