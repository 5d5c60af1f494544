{
 "claims": [
  {
   "property": "C01",
   "status": "proved",
   "theorems": [
    "C01_remaining_length_round_trip",
    "C01_on_a_stream"
   ],
   "note": "On byte sequences and on every state of a buffered stream."
  },
  {
   "property": "C02",
   "status": "partial",
   "theorems": [
    "C02_four_byte_lengths_refuted",
    "C02_every_legal_length_refuted",
    "C02_refuted",
    "C02_accepted_lengths_partial"
   ],
   "note": "False of the code: the check in decode_remaining_length rejects every four-byte length (refuted for all of them). Proved instead: exactly the one to three byte forms are accepted."
  },
  {
   "property": "C03",
   "status": "proved",
   "theorems": [
    "C03_length_form",
    "C03_unique",
    "C03_at_most_four"
   ],
   "note": "All u64 values; the form is also shown to be the unique shortest one."
  },
  {
   "property": "C04",
   "status": "proved",
   "theorems": [
    "C04_publish_round_trip"
   ],
   "note": "All PUBLISH packets whose body is below 2^21 bytes, the largest the reader accepts."
  },
  {
   "property": "C05",
   "status": "proved",
   "theorems": [
    "C05_ack_round_trip"
   ],
   "note": "All four kinds, all ids."
  },
  {
   "property": "C06",
   "status": "proved",
   "theorems": [
    "C06_connect_as_sent",
    "C06_length_fits"
   ],
   "note": "Any protocol name and level, as the broker does not check them; any spelling of the length in at most three bytes."
  },
  {
   "property": "C07",
   "status": "partial",
   "theorems": [
    "C07_will_taken_for_credentials_refuted",
    "C07_connect_with_will_refuted",
    "C07_refuted",
    "C07_what_is_read_partial",
    "C07_binary_will_partial"
   ],
   "note": "False of the code: will topic and payload are taken for user name and password and the real ones are left in the stream. Proved instead: what is read for every CONNECT with a will, whatever its payload (an error exactly when both credentials are present and the payload is not text)."
  },
  {
   "property": "C08",
   "status": "proved",
   "theorems": [
    "C08_subscribe_as_sent"
   ],
   "note": "Any spelling of the length in at most three bytes."
  },
  {
   "property": "C09",
   "status": "proved",
   "theorems": [
    "C09_unsubscribe_as_sent"
   ],
   "note": "Any spelling of the length in at most three bytes."
  },
  {
   "property": "C10",
   "status": "proved",
   "theorems": [
    "C10_accepted_exactly",
    "C10_fields_within_limits",
    "C10_malformed_never_accepted"
   ],
   "note": "Also an exact characterisation of accepted inputs. In release builds SUBSCRIBE and UNSUBSCRIBE are assumed below 2^64 bytes, since a wrapped u64 length could otherwise be consumed; the limits on fields hold on every input."
  },
  {
   "property": "C11",
   "status": "proved",
   "theorems": [
    "C11_strings_are_utf8",
    "C11_error_position"
   ],
   "note": "Also the error position."
  },
  {
   "property": "C12",
   "status": "partial",
   "theorems": [
    "C12_declared_length_consumed_partial",
    "C12_conforming_sequence_partial",
    "C12_boundaries_refuted",
    "C12_refuted",
    "C12_unchecked_lengths_refuted"
   ],
   "note": "False for CONNECT, acknowledgements, PINGREQ and DISCONNECT, whose declared length is ignored (refuted in general). Proved for PUBLISH, SUBSCRIBE, UNSUBSCRIBE on every input, and for every sequence of conforming packets."
  },
  {
   "property": "C13",
   "status": "proved",
   "theorems": [
    "C13_no_packet_before_all_bytes"
   ],
   "note": "On every state of a buffered stream; the spinning loop of C15 is possible only if the arrived prefix fills the buffer."
  },
  {
   "property": "C14",
   "status": "proved",
   "theorems": [
    "C14_allocation_choices",
    "C14_segmentation_irrelevant",
    "C14_from_any_state",
    "C14_first_4096_bytes"
   ],
   "note": "Segmentation, allocation choices and library version matter only for whether a run spins (C15); before bytes 1.7 segmentation is irrelevant altogether, since then an example shows it can decide."
  },
  {
   "property": "C15",
   "status": "partial",
   "theorems": [
    "C15_large_publish_spins_refuted",
    "C15_spin_is_divergence",
    "C15_reading_finishes_refuted",
    "C15_refuted",
    "C15_spins_exactly_partial",
    "C15_small_packets_finish_partial",
    "C15_first_4096_bytes_partial"
   ],
   "note": "False of the code: get_bytes spins when a field exceeds the capacity left. Proved: the exact condition, bounds for PUBLISH in closed form, that it is divergence, and that packets within the capacity are read."
  },
  {
   "property": "C16",
   "status": "partial",
   "theorems": [
    "C16_no_panic_refuted",
    "C16_refuted",
    "C16_qos3_refuted",
    "C16_panics_exactly_partial",
    "C16_stream_panics_partial",
    "C16_conforming_never_panics_partial"
   ],
   "note": "False of the code. Proved: the exact set of inputs that panic, debug and release, and that conforming packets and their prefixes never do."
  },
  {
   "property": "C17",
   "status": "proved",
   "theorems": [
    "C17_client_understands",
    "C17_other_kinds_not_written"
   ],
   "note": "Against an independent parser."
  },
  {
   "property": "C18",
   "status": "proved",
   "theorems": [
    "C18_bytes_once_in_order",
    "C18_from_any_state",
    "C18_with_errors",
    "C18_errors_break_framing"
   ],
   "note": "Also with write errors, where each packet contributes a prefix."
  },
  {
   "property": "C19",
   "status": "partial",
   "theorems": [
    "C19_handed_to_socket_refuted",
    "C19_refuted",
    "C19_whole_writes_partial",
    "C19_suffix_missing_partial"
   ],
   "note": "False of the code under short writes. Proved: whole writes hand over everything, and in general only a suffix is missing."
  },
  {
   "property": "C20",
   "status": "proved",
   "theorems": [
    "C20_writing_finishes",
    "C20_states_wellformed"
   ],
   "note": "Every well-formed stream state, every socket behaviour."
  },
  {
   "property": "C21",
   "status": "proved",
   "theorems": [
    "C21_relay"
   ],
   "note": "Any input that reads as PUBLISH; identical bytes if the length was in shortest form."
  },
  {
   "property": "C22",
   "status": "proved",
   "theorems": [
    "C22_in_the_broker",
    "C22_selected_exactly",
    "C22_filters_listed",
    "C22_as_mqtt"
   ],
   "note": "Names without a wildcard level. A filter requested n times counts n times, as the code does; without repeated requests this is MQTT's one copy per matching filter (second theorem)."
  },
  {
   "property": "C23",
   "status": "partial",
   "theorems": [
    "C23_parent_never_selected",
    "C23_hash_matches_parent_refuted",
    "C23_below_root_partial"
   ],
   "note": "False of the code for every root (a/# never selects a). Proved instead: exactly one copy for every name below the root."
  },
  {
   "property": "C24",
   "status": "partial",
   "theorems": [
    "C24_dollar_topics_selected",
    "C24_wildcards_skip_dollar_refuted",
    "C24_agrees_with_mqtt_partial",
    "C24_missed_exactly",
    "C24_extra_exactly"
   ],
   "note": "False of the code: # selects every $-topic. Proved instead: exactly where the matching differs from MQTT's in both directions (missed: g/# for a name that g matches; extra: a leading wildcard and a name starting with $)."
  },
  {
   "property": "C25",
   "status": "partial",
   "theorems": [
    "C25_in_the_broker_partial",
    "C25_one_copy_per_mention",
    "C25_unsubscribe_stops_delivery_refuted",
    "C25_unsubscribe_stops_delivery_partial",
    "C25_others_unaffected"
   ],
   "note": "False for a filter subscribed more than once, since one copy is removed per mention. Proved: the exact effect for all histories, the full claim for histories without repeated subscriptions, and that other clients are unaffected."
  },
  {
   "property": "C26",
   "status": "partial",
   "theorems": [
    "C26_in_the_broker_partial",
    "C26_disconnect_forgets_refuted",
    "C26_one_copy_each",
    "C26_disconnect_forgets_partial",
    "C26_others_unaffected"
   ],
   "note": "False for a filter subscribed more than once. Proved: the exact effect for all histories, the full claim (until the next subscription, any name) for histories without repeated subscriptions, and that other clients are unaffected."
  },
  {
   "property": "C27",
   "status": "proved",
   "theorems": [
    "C27_no_interference"
   ],
   "note": "All histories, all names including ones with wildcards."
  },
  {
   "property": "C28",
   "status": "partial",
   "theorems": [
    "C28_in_the_broker",
    "C28_each_request_adds_a_copy",
    "C28_replaces_refuted",
    "C28_copies_accumulate_partial"
   ],
   "note": "False of the code: every request adds a copy (proved exactly, for all histories)."
  },
  {
   "property": "C29",
   "status": "partial",
   "theorems": [
    "C29_one_copy_per_subscription_partial",
    "C29_exponential_copies",
    "C29_at_most_one_copy_refuted"
   ],
   "note": "False for names with wildcard levels: the name +/+/.../+ with k levels selects one subscription 2^k times (proved for all k). Holds for names without wildcard levels."
  },
  {
   "property": "C30",
   "status": "proved",
   "theorems": [
    "C30_suback",
    "C30_calls_before_sends",
    "C30_takes_effect"
   ],
   "note": "All states; the acknowledgement comes after all service calls because every handler program calls before it sends."
  },
  {
   "property": "C31",
   "status": "proved",
   "theorems": [
    "C31_session_exactly_when_connected"
   ],
   "note": "All histories of client events; 'connected' is defined on the history alone."
  },
  {
   "property": "C32",
   "status": "proved",
   "theorems": [
    "C32_session_belongs_to_owner",
    "C32_messages_go_to_owner",
    "C32_owner_gets_them",
    "C32_one_owner"
   ],
   "note": "All histories; owner defined on the history alone, unique; every queued PUBLISH goes to an owner of a selected id, and every owner of a selected id gets it."
  },
  {
   "property": "C33",
   "status": "partial",
   "theorems": [
    "C33_never_set",
    "C33_session_present_refuted",
    "C33_truthful_when_nothing_kept_partial"
   ],
   "note": "False of the code: the flag is never set (SessionGet is stubbed to None). It is right when nothing was kept."
  },
  {
   "property": "C34",
   "status": "proved",
   "theorems": [
    "C34_session_count",
    "C34_ids_listed"
   ],
   "note": "All histories."
  },
  {
   "property": "C35",
   "status": "proved",
   "theorems": [
    "C35_ping"
   ],
   "note": "All histories."
  },
  {
   "property": "C36",
   "status": "proved",
   "theorems": [
    "C36_unsuback",
    "C36_takes_effect"
   ],
   "note": "All states."
  },
  {
   "property": "C37",
   "status": "proved",
   "theorems": [
    "C37_only_writable",
    "C37_writer_never_panics"
   ],
   "note": "For every event whose packet the reader can deliver: packet kind writable, fields in range, body within the MQTT limit; the write stream never panics or spins on it, from any well-formed buffer."
  },
  {
   "property": "C38",
   "status": "partial",
   "theorems": [
    "C38_old_connection_ends_session",
    "C38_stale_disconnect_refuted",
    "C38_other_ids_cannot_partial",
    "C38_other_ids_subscriptions_partial"
   ],
   "note": "False of the code in every state: DISCONNECT removes the session by client id whichever connection it came on. Holds for events of other client ids."
  },
  {
   "property": "C39",
   "status": "partial",
   "theorems": [
    "C39_lost_connection_cleaned_up_refuted",
    "C39_only_disconnect_ends_a_session_partial"
   ],
   "note": "False of the code: no event for a lost connection is ever sent, so a session outlives its connection (run in which the broker can do nothing more). Proved: in every execution only a DISCONNECT packet ends a session."
  },
  {
   "property": "C40",
   "status": "proved",
   "theorems": [
    "C40_exact",
    "C40_file",
    "C40_session"
   ],
   "note": "authenticate decides exactly as stated, for every behaviour of the hash library (a parameter); carried through to the text of the file and to which clients have sessions in the broker."
  },
  {
   "property": "C41",
   "status": "proved",
   "theorems": [
    "C41_loads",
    "C41_rejects",
    "C41_every_content",
    "C41_entries",
    "C41_unreadable"
   ],
   "note": "For every file content: the lines of the text are specified independently (including CRLF and a last line without newline; both behaviours std has had for a final bare CR)."
  },
  {
   "property": "C42",
   "status": "proved",
   "theorems": [
    "C42_rejected_login"
   ],
   "note": "All states."
  },
  {
   "property": "C43",
   "status": "partial",
   "theorems": [
    "C43_refused_has_no_effect_refuted",
    "C43_refused_gets_nothing_partial"
   ],
   "note": "False of the code: the read task goes on after the refusal (run in which a refused client's message is delivered). Proved for every execution: a refused connection is sent at most the refusing CONNACK and never has a session."
  },
  {
   "property": "C44",
   "status": "partial",
   "theorems": [
    "C44_no_client_can_crash_refuted",
    "C44_crash_by_ping_refuted",
    "C44_no_other_crash_partial"
   ],
   "note": "False of the code: two runs that panic the handler (user name without password; PINGREQ after refusal). Proved for every execution: no other way exists."
  },
  {
   "property": "C45",
   "status": "partial",
   "theorems": [
    "C45_effect",
    "C45_set_partial",
    "C45_login_partial",
    "C45_set_refuted",
    "C45_duplicate_refuted",
    "C45_no_newline_refuted"
   ],
   "note": "False of the code: setting bob's password rewrites alicebob's entry; with two entries only the first is changed, while the broker uses the last; an entry without final newline is not seen. Proved: the exact effect on every file of entries, for every case folding that keeps colons and newlines; and the claim for files without those ambiguities."
  },
  {
   "property": "C46",
   "status": "partial",
   "theorems": [
    "C46_effect",
    "C46_delete_partial",
    "C46_absent_partial",
    "C46_delete_refuted"
   ],
   "note": "False of the code: deleting the absent user bob cuts alicebob's entry, after which the broker refuses the file. Proved: the exact effect on every file of entries, and the claim for unambiguous files."
  },
  {
   "property": "C47",
   "status": "proved",
   "theorems": [
    "C47_escaping",
    "C47_replacement"
   ],
   "note": "For every entry text and every matched text, with a model of the regex crate's replacement syntax ($$, $name, ${name}, group 0)."
  },
  {
   "property": "C48",
   "status": "proved",
   "theorems": [
    "C48_connack_first_and_once",
    "C48_connack_code"
   ],
   "note": "Every execution of the whole broker; also which code the CONNACK carries."
  },
  {
   "property": "C49",
   "status": "proved",
   "theorems": [
    "C49_nothing_before_connect"
   ],
   "note": "Every execution; the hypothesis is on the bytes the client sends."
  },
  {
   "property": "C50",
   "status": "proved",
   "theorems": [
    "C50_no_invented_messages",
    "C50_read_before_sent"
   ],
   "note": "Every execution."
  },
  {
   "property": "C51",
   "status": "proved",
   "theorems": [
    "C51_messages_in_order"
   ],
   "note": "Every execution, every pair of connections; copies per overlapping subscription stay adjacent."
  },
  {
   "property": "C52",
   "status": "proved",
   "theorems": [
    "C52_publish_reaches_subscribers",
    "C52_copies"
   ],
   "note": "All histories; combined with the count of live matching subscriptions for names without wildcards."
  },
  {
   "property": "C53",
   "status": "proved",
   "theorems": [
    "C53_why_the_handler_ends",
    "C53_an_ended_handler_does_nothing"
   ],
   "note": "Every execution."
  },
  {
   "property": "C54",
   "status": "partial",
   "theorems": [
    "C54_slow_subscriber_stalls_nobody_refuted",
    "C54_next_event_partial",
    "C54_stalled_for_ever_partial"
   ],
   "note": "False of the code: run in which one subscriber that stops reading stalls the handler for ever. Proved: from every reachable state the next event can be processed unless the handler panics or waits on the full queue of a connection whose peer does not read, and then it waits for ever."
  },
  {
   "property": "C55",
   "status": "proved",
   "theorems": [
    "C55_leeway",
    "C55_deadline",
    "C55_one_and_a_half"
   ],
   "note": "Binary32 arithmetic from the standard library's SpecFloat; the product is shown exact-then-truncated for each of the 65536 keep-alive values (the whole type), and the deadline for all times within the range chrono can represent."
  },
  {
   "property": "C56",
   "status": "partial",
   "theorems": [
    "C56_idle_clients_are_disconnected_refuted",
    "C56_reasons_to_close_partial"
   ],
   "note": "False of the code: run with a silent client in which the broker can do nothing more. Proved for every execution: the exact reasons to close a connection, none of which is time."
  },
  {
   "property": "C57",
   "status": "partial",
   "theorems": [
    "C57_shutdown_completes_refuted",
    "C57_shutdown_partial",
    "C57_exit_after_handler",
    "C57_every_run_partial",
    "C57_program_ends_partial"
   ],
   "note": "False of the code: a stalled handler blocks shutdown for ever. Proved instead, of every run from every state after ctrl-c: it ends with main exited after the handler stopped, or main panicked after the handler panicked, or the handler waiting for ever for a peer that does not read; with peers that read the program ends."
  },
  {
   "property": "C58",
   "status": "proved",
   "theorems": [
    "C58_queues_bounded"
   ],
   "note": "Every execution."
  },
  {
   "property": "C59",
   "status": "proved",
   "theorems": [
    "C59_bytes_on_the_wire",
    "C59_client_reads",
    "C59_all_arrived",
    "C59_with_errors"
   ],
   "note": "Whole broker, from accept to the peer's bytes, read by the independent client parser; with write errors each packet contributes a prefix. Peers are assumed to send less than 2^64 bytes where packets must be readable."
  },
  {
   "property": "C60",
   "status": "proved",
   "theorems": [
    "C60_dies_out",
    "C60_no_infinite_run"
   ],
   "note": "The step relation without accept is well-founded below every reachable state. A reader spinning in get_bytes (C15) counts as stopped: it never takes its next step."
  },
  {
   "property": "C61",
   "status": "proved",
   "theorems": [
    "C61_nothing_left_undone"
   ],
   "note": "Every execution. 'Every complete packet' is what reading the client's bytes to the end yields, which stops at a spin (C15) or error."
  },
  {
   "property": "C62",
   "status": "proved",
   "theorems": [
    "C62_everything_gets_done"
   ],
   "note": "Inevitability as an inductive predicate over all schedules; no fairness assumption is needed because activity dies out."
  },
  {
   "property": "C63",
   "status": "proved",
   "theorems": [
    "C63_message_arrives"
   ],
   "note": "End to end: bytes in, bytes out. Ownership, live subscriptions and matching are the history-level specifications."
  },
  {
   "property": "C64",
   "status": "proved",
   "theorems": [
    "C64_qos1_acknowledged_refuted",
    "C64_packets_sent",
    "C64_acks_ignored"
   ],
   "note": "The rule is C64_statement, refuted by a run to rest; the two other theorems say what happens."
  },
  {
   "property": "C65",
   "status": "proved",
   "theorems": [
    "C65_delivered_at_granted_qos_refuted",
    "C65_grants_only_qos0",
    "C65_qos_of_the_publisher"
   ],
   "note": "Rule refuted by a subscriber that publishes to itself at QoS 1."
  },
  {
   "property": "C66",
   "status": "proved",
   "theorems": [
    "C66_second_connect_refuted",
    "C66_second_connect_ignored"
   ],
   "note": "Rule refuted by a run to rest."
  },
  {
   "property": "C67",
   "status": "proved",
   "theorems": [
    "C67_takeover_closes_old_refuted",
    "C67_connect_is_private"
   ],
   "note": "Rule refuted by a run to rest with two connections under one client id."
  },
  {
   "property": "C68",
   "status": "proved",
   "theorems": [
    "C68_only_live_messages",
    "C68_retained_messages_refuted"
   ],
   "note": "Retained messages of a history are specified separately and the rule is refuted by a history."
  },
  {
   "property": "C69",
   "status": "proved",
   "theorems": [
    "C69_will_published_refuted",
    "C69_loss_is_silent",
    "C69_wills_never_seen"
   ],
   "note": "Rule refuted on the handler; the last theorem covers all executions, from bytes to events."
  },
  {
   "property": "C70",
   "status": "proved",
   "theorems": [
    "C70_persistent_session_refuted",
    "C70_what_is_kept"
   ],
   "note": "Rule refuted by a history."
  },
  {
   "property": "C71",
   "status": "proved",
   "theorems": [
    "C71_clean_session_refuted",
    "C71_connect_keeps_subscriptions",
    "C71_clean_if_none_left"
   ],
   "note": "Rule refuted by a history."
  },
  {
   "property": "C72",
   "status": "proved",
   "theorems": [
    "C72_wildcard_names_refuted",
    "C72_copies_for_any_name"
   ],
   "note": "Generalises C22 from names without wildcards to all names; refuted with two copies of a PUBLISH to '#'."
  },
  {
   "property": "C73",
   "status": "proved",
   "theorems": [
    "C73_bad_filters_refused_refuted",
    "C73_inner_hash_is_dead"
   ],
   "note": "Rule refuted on the filter a/#/b."
  },
  {
   "property": "C74",
   "status": "proved",
   "theorems": [
    "C74_flags_cleared_refuted",
    "C74_flags_of_the_publisher"
   ],
   "note": "Rule refuted by a run."
  },
  {
   "property": "C75",
   "status": "proved",
   "theorems": [
    "C75_tree_is_pruned_refuted",
    "C75_tree_grows",
    "C75_unbounded"
   ],
   "note": "C75_statement (an unused tree has one node) is refuted; nodes counts the tree of the model."
  },
  {
   "property": "C76",
   "status": "proved",
   "theorems": [
    "C76_packet_ids_unique_refuted",
    "C76_ids_of_the_publishers"
   ],
   "note": "Rule refuted by a run with two publishers."
  },
  {
   "property": "C77",
   "status": "proved",
   "theorems": [
    "C77_protocol_level_refuted",
    "C77_codes"
   ],
   "note": "Rule refuted by a run with protocol level 9."
  },
  {
   "property": "C78",
   "status": "proved",
   "theorems": [
    "C78_credentials_decide",
    "C78_empty_id_refused_refuted"
   ],
   "note": "Rule refuted by a run to rest."
  },
  {
   "property": "C79",
   "status": "proved",
   "theorems": [
    "C79_nothing_after_disconnect_refuted",
    "C79_all_packets_handled"
   ],
   "note": "Rule refuted by a run in which a PUBLISH after DISCONNECT is delivered."
  },
  {
   "property": "C80",
   "status": "proved",
   "theorems": [
    "C80_ended_connection_closes_refuted",
    "C80_when_closed"
   ],
   "note": "C80_statement (it always gets closed) is refuted by a run to rest."
  },
  {
   "property": "C81",
   "status": "proved",
   "theorems": [
    "C81_one_session_per_connection"
   ],
   "note": "Also while an event is being handled."
  },
  {
   "property": "C82",
   "status": "proved",
   "theorems": [
    "C82_order_decides"
   ],
   "note": "For sockets that do not block."
  },
  {
   "property": "C83",
   "status": "proved",
   "theorems": [
    "C83_oversized_packets_stop_the_broker"
   ],
   "note": "A denial of service: the theorem is about the code as it is. Rests on the thread model of Pool.v."
  },
  {
   "property": "C84",
   "status": "proved",
   "theorems": [
    "C84_same_broker",
    "C84_spinning_overruns",
    "C84_free_worker",
    "C84_all_runs"
   ],
   "note": "Which bytes overrun is C15."
  },
  {
   "property": "C85",
   "status": "proved",
   "theorems": [
    "C85_everything_gets_done"
   ],
   "note": "C62 on worker threads."
  },
  {
   "property": "C86",
   "status": "proved",
   "theorems": [
    "C86_one_event",
    "C86_all_events",
    "C86_every_execution",
    "C86_at_rest",
    "C86_some_order"
   ],
   "note": "Spec_ref.v is the reference broker; it shares only types with the model."
  },
  {
   "property": "C87",
   "status": "proved",
   "theorems": [
    "C87_rest",
    "C87_every_run"
   ],
   "note": "Needs no assumption about sockets, unlike C61 and C62."
  },
  {
   "property": "C88",
   "status": "proved",
   "theorems": [
    "C88_a_client_that_stops_reading_stops_the_broker"
   ],
   "note": "A defect; the theorem states it in general."
  },
  {
   "property": "C89",
   "status": "proved",
   "theorems": [
    "C89_a_user_name_without_password_stops_the_broker"
   ],
   "note": "A defect; the theorem states it in general."
  },
  {
   "property": "C90",
   "status": "proved",
   "theorems": [
    "C90_answers_in_order",
    "C90_all_answered"
   ],
   "note": "Both directions: a prefix in every execution, all of the answers at rest."
  },
  {
   "property": "C91",
   "status": "proved",
   "theorems": [
    "C91_who_gets_a_message",
    "C91_only_what_it_asked_for_refuted",
    "C91_asked_for_by_clients_let_in_refuted"
   ],
   "note": "The two stronger rules (C91_statement, C91_statement2) are refuted by runs; the theorem is what holds for every execution."
  },
  {
   "property": "C92",
   "status": "proved",
   "theorems": [
    "C92_possible_orders",
    "C92_possible_outcomes"
   ],
   "note": "An equivalence. A run in which the handler ends or blocks is covered by C87."
  },
  {
   "property": "C93",
   "status": "proved",
   "theorems": [
    "C93_a_refused_client_stops_the_broker"
   ],
   "note": "A defect; the theorem states it in general."
  },
  {
   "property": "C94",
   "status": "proved",
   "theorems": [
    "C94_calls_succeed",
    "C94_same_executions",
    "C94_all_executions",
    "C94_nobody_else_waits",
    "C94_rest",
    "C94_every_run"
   ],
   "note": "Service.v has the channel, the oneshots and the sessions the handler holds; C94_same_executions and C94_all_executions are the two directions, C94_rest and C94_every_run carry C61, C86 and C87 over. C94_nobody_else_waits: while a call is under way nothing else is blocked by it."
  },
  {
   "property": "C95",
   "status": "proved",
   "theorems": [
    "C95_packets_handled",
    "C95_answers_sent",
    "C95_served",
    "C95_fair_runs"
   ],
   "note": "The fairness assumed is of the tokio runtime and of its channels (a place in a full channel is given to the sender that waits longest), both outside the model; it is a hypothesis of the theorems, not an axiom. The run of C95_case is computed for 100 steps only for its last two facts; that it is fair and accepts every peer is proved."
  },
  {
   "property": "C96",
   "status": "proved",
   "theorems": [
    "C96_prepared",
    "C96_started",
    "C96_starting",
    "C96_all",
    "C96_no_address"
   ],
   "note": "Settings and bind results are parameters."
  },
  {
   "property": "C97",
   "status": "proved",
   "theorems": [
    "C97_login",
    "C97_answered",
    "C97_after_set",
    "C97_after_delete"
   ],
   "note": "The tool's part keeps the conditions of C45 and C46; Argon2 is a parameter."
  },
  {
   "property": "C98",
   "status": "proved",
   "theorems": [
    "C98_one_tool",
    "C98_nobody_writes",
    "C98_every_mix",
    "C98_lost_update",
    "C98_two_mixed",
    "C98_empty"
   ],
   "note": "Failing system calls are treated as the process being killed."
  },
  {
   "property": "C99",
   "status": "proved",
   "theorems": [
    "C99_height",
    "C99_same_broker",
    "C99_aborts",
    "C99_never_passes",
    "C99_possible_orders",
    "C99_takes_down",
    "C99_one_client",
    "C99_never",
    "C99_limit"
   ],
   "note": "room counts nested calls of remove_client; bytes per call are not modelled"
  },
  {
   "property": "C100",
   "status": "proved",
   "theorems": [
    "C100_open_at_rest",
    "C100_none_closed",
    "C100_limit_kept",
    "C100_full_for_ever",
    "C100_can_be_filled",
    "C100_nobody_else"
   ],
   "note": "limit counts client sockets; other descriptors are not modelled. The hypothesis on the newcomers (distinct, unused, non-empty ids, accepted, writes not blocked) is discharged for two concrete peers in C100_case."
  },
  {
   "property": "C101",
   "status": "proved",
   "theorems": [
    "C101_no_harm",
    "C101_all_served",
    "C101_every_run",
    "C101_delivered"
   ],
   "note": "The conditions are needed: C88 (a socket that blocks), C89 and C93 (credentials), C91 (shared ids), C102 (PINGREQ after DISCONNECT)."
  },
  {
   "property": "C102",
   "status": "proved",
   "theorems": [
    "C102_requests_after_disconnect"
   ],
   "note": "Exact number: with 31 further requests a surviving run exists (C102_case)."
  },
  {
   "property": "C103",
   "status": "proved",
   "theorems": [
    "C103_never_again",
    "C103_anybody_ends_any_session"
   ],
   "note": "Exact behaviour. MQTT's takeover rule would at least close the old connection (see C67)."
  },
  {
   "property": "C104",
   "status": "proved",
   "theorems": [
    "C104_anybody_reads_everything"
   ],
   "note": "Exact behaviour. Includes names that begin with $ (see C24)."
  },
  {
   "property": "C105",
   "status": "proved",
   "theorems": [
    "C105_one_message_many_copies",
    "C105_others_wait"
   ],
   "note": "Exact behaviour. A name may have up to 65535 bytes, which makes 2^32768 copies. MQTT-3.3.2-2 forbids wildcards in names; the broker accepts them (C72), and C29 is about the same copies for the repository alone."
  },
  {
   "property": "C106",
   "status": "proved",
   "theorems": [
    "C106_ordinary_traffic_spins",
    "C106_steady_publisher"
   ],
   "note": "The buffer is created with capacity 4096; consuming bytes takes from it, and only a number read on a full buffer makes it grow. Since bytes 1.7 a number that was all there was in the buffer gives its room back, hence the condition on the reads. When the cut falls into a number the buffer grows by at least 64 and the question is asked again later; what happens then depends on the allocator (C15_spins_exactly_partial gives the exact condition)."
  },
  {
   "property": "C107",
   "status": "proved",
   "theorems": [
    "C107_service_ends",
    "C107_ordinary_clients"
   ],
   "note": "C83 is the possibility of the attack with one oversized packet each; here the end of service is inevitable and the packets are ordinary. The thread model is that of C83-C85 (Pool.v)."
  },
  {
   "property": "C108",
   "status": "proved",
   "theorems": [
    "C108_only_messages_matter",
    "C108_as_if_alone",
    "C108_every_run",
    "C108_among_the_well_behaved",
    "C108_no_difference"
   ],
   "note": "The client's own requests after the end of its session or a refusal are included (alone is the reference broker with one client). That an id of one's own is needed is C103; that others can stop the broker altogether (then no state of rest with a running handler exists) is C83, C88, C89, C93, C102, C107."
  },
  {
   "property": "C109",
   "status": "proved",
   "theorems": [
    "C109_listeners_from_file",
    "C109_variables_take_precedence_refuted",
    "C109_variable_stops_the_start",
    "C109_program_panics",
    "C109_any_case",
    "C109_plain"
   ],
   "note": "The README's promise is C109_statement, refuted. The model of the config crate (version 0.10) as Settings::new uses it is in Settings.v: a variable is a string, and a Vec is read from an array only. C109_any_case and C109_plain say what 'in any case' and 'letters, digits and underscores' mean by lists of the characters."
  },
  {
   "property": "C110",
   "status": "proved",
   "theorems": [
    "C110_password_file_overridden",
    "C110_without_variables",
    "C110_not_unicode",
    "C110_order_decides",
    "C110_last_counts"
   ],
   "note": "C110_password_file_overridden, C110_without_variables, C110_not_unicode, C110_order_decides (both outcomes are possible for every such environment and every file with listeners)."
  },
  {
   "property": "C111",
   "status": "proved",
   "theorems": [
    "C111_no_difference",
    "C111_converse",
    "C111_transfer",
    "C111_reference",
    "C111_comes_to_rest",
    "C111_served"
   ],
   "note": "Live.v adds the clients' own acts (Arrive, Finish, React) to the transition system of System.v, in which everything a peer does is chosen when it is accepted. Live_facts.v shows that every live state is foreseen: for whatever the clients will still do there is a run of System.v that has come to the same state with clients that decided so beforehand (a read that returned does not depend on bytes that come later, given the sizes of the reads; a write that returned does not depend on later reactions). C111_no_difference and C111_converse are the two directions, C111_transfer the principle, C111_reference, C111_comes_to_rest and C111_served what follows from C86 and C87."
  },
  {
   "property": "C112",
   "status": "proved",
   "theorems": [
    "C112_packets_handled",
    "C112_answers_sent",
    "C112_served",
    "C112_fair_runs"
   ],
   "note": "C95 for the live clients of Live.v (C111), who may send for ever: then the broker need never come to rest, and every step of the argument has to hold while bytes keep arriving. Live_fair.v carries the invariants over to live runs (through C111_no_difference) and shows that the handler, the write tasks and the read tasks go on. The second alternative is the flaw of C04; with at most 4096 bytes it does not occur. C112_fair_runs: for every sequence of acts of the world there is a fair run in which each has its turn, so the theorems are not about nothing."
  },
  {
   "property": "C113",
   "status": "proved",
   "theorems": [
    "C113_handler",
    "C113_levels",
    "C113_others"
   ],
   "note": "Logging.v has the records of every log macro that runs while the broker serves, with the text that format! makes; Log_facts.v shows that the handler's log of any run is decided by the events it has taken (the last may still be in progress). C113_handler: told_all describes the log by the reference broker of C86. C113_others: the five texts of the other tasks. Successful logins leave no trace at this level, refused ones do."
  },
  {
   "property": "C114",
   "status": "proved",
   "theorems": [
    "C114_no_secrets",
    "C114_others",
    "C114_refusals"
   ],
   "note": "C114_no_secrets, C114_others, C114_refusals. The hypothesis about refusals (same text for two passwords that are judged the same) is what C114_refusals proves of FileIdentityManager. Messages of panics do not go through the logger and are not covered."
  },
  {
   "property": "C115",
   "status": "proved",
   "theorems": [
    "C115_printable",
    "C115_escapes",
    "C115_numbers",
    "C115_passwords",
    "C115_payloads",
    "C115_payload_readable",
    "C115_ascii_password_readable",
    "C115_verbatim"
   ],
   "note": "C115_passwords, C115_payloads, C115_payload_readable, C115_ascii_password_readable, C115_verbatim. A flaw: the derived Debug of ConnectPacket prints the password, and the handler logs whole events. Debug of strings with non-ASCII characters is a parameter (of_string). C115_printable: what is shown of bytes, and of ASCII text, is printable ASCII; C115_numbers: a port or keep alive is shown by its decimal digits."
  },
  {
   "property": "C116",
   "status": "proved",
   "theorems": [
    "C116_user_name",
    "C116_client_id"
   ],
   "note": "C116_user_name, C116_client_id. A flaw: these two macros use {} and not {:?}, so nothing is escaped and a forged line cannot be told from a real one (C116_case). The packets are sent as MQTT allows (sent_as), in any chunks."
  },
  {
   "property": "C117",
   "status": "proved",
   "theorems": [
    "C117_order_grows",
    "C117_answered_is_handled",
    "C117_unsent_not_handled",
    "C117_linearizable",
    "C117_after_suback"
   ],
   "note": "C117_order_grows, C117_answered_is_handled, C117_unsent_not_handled, C117_linearizable, C117_after_suback. Answers are counted: a connection that was sent more packets other than PUBLISH than its first i packets can have been answered with. C117_after_suback is about the order of events, which the first theorem gives from what clients observe."
  },
  {
   "property": "C118",
   "status": "proved",
   "theorems": [
    "C118_one_order",
    "C118_no_two_orders",
    "C118_causal"
   ],
   "note": "C118_one_order, C118_no_two_orders, C118_causal. The last two compare messages by content and therefore ask that no packet is published twice (NoDup); the first, and the first half of the third, go by position and need no such thing."
  },
  {
   "property": "C119",
   "status": "proved",
   "theorems": [
    "C119_same_states",
    "C119_places",
    "C119_weak_is_enough",
    "C119_served",
    "C119_place_after",
    "C119_in_order",
    "C119_fair_runs"
   ],
   "note": "C119_same_states, C119_places, C119_place_after, C119_in_order, C119_weak_is_enough, C119_served, C119_fair_runs. That tokio's mpsc gives out places in this order is part of the model (Fifo.v), not of /repo."
  },
  {
   "property": "C120",
   "status": "proved",
   "theorems": [
    "C120_unfinished",
    "C120_collects",
    "C120_collects_names",
    "C120_collects_short",
    "C120_collects_names_short",
    "C120_no_packet",
    "C120_reserved",
    "C120_six_bytes",
    "C120_stream",
    "C120_bound_reached"
   ],
   "note": "C120_unfinished, C120_bound_reached, C120_reserved, C120_six_bytes, C120_collects, C120_collects_names, C120_stream, C120_no_packet (with overflow checks a panic, without them never a packet). Memory is counted in bytes read, filters held and buffer sizes asked for; the allocator is not modelled."
  },
  {
   "property": "C121",
   "status": "proved",
   "theorems": [
    "C121_same_results",
    "C121_name",
    "C121_message",
    "C121_nodes",
    "C121_disconnect",
    "C121_pluses"
   ],
   "note": "C121_same_results (the counting functions return what the model's do), C121_name, C121_message, C121_nodes, C121_disconnect, C121_pluses. Counted in nodes looked at, not in time; the clients listed in a node are not counted."
  },
  {
   "property": "C122",
   "status": "proved",
   "theorems": [
    "C122_spinning_never_ends",
    "C122_one_packet",
    "C122_rest",
    "C122_every_run",
    "C122_process_ends",
    "C122_main_is_last",
    "C122_left_over"
   ],
   "note": "C122_main_is_last, C122_left_over, C122_spinning_never_ends, C122_one_packet, C122_rest, C122_every_run, C122_process_ends. What tokio does when the runtime is dropped is trusted as its documentation describes it (Teardown.v)."
  },
  {
   "property": "C123",
   "status": "proved",
   "theorems": [
    "C123_same_broker",
    "C123_good_end",
    "C123_aborts",
    "C123_never",
    "C123_every_run"
   ],
   "note": "C123_same_broker, C123_good_end, C123_aborts, C123_never, C123_every_run. Stacks are counted in nested calls, not bytes (Drop.v)."
  },
  {
   "property": "C124",
   "status": "proved",
   "theorems": [
    "C124_other_name",
    "C124_no_other_name",
    "C124_every_path",
    "C124_relative",
    "C124_exact_name",
    "C124_other_file",
    "C124_any_extension",
    "C124_default",
    "C124_image",
    "C124_image_panics",
    "C124_image_variable"
   ],
   "note": "C124_other_name, C124_no_other_name, C124_every_path, C124_exact_name, C124_other_file, C124_any_extension, C124_default, C124_image, C124_image_panics, C124_image_variable. What the config crate (0.10) and PathBuf::set_extension do is modelled in ConfigFile.v; the TOML parser is any function; links are not followed. A flaw: README.md's docker run gives a broker that panics at once."
  },
  {
   "property": "C125",
   "status": "proved",
   "theorems": [
    "C125_exact",
    "C125_histories",
    "C125_at_rest",
    "C125_every_execution"
   ],
   "note": "C125_exact: both directions for every pair of events; the 'only if' direction constructs a distinguishing context for each pair that is not alike. C125_histories, C125_at_rest and C125_every_execution carry it to histories and to executions of the whole system through C86. 'Sent' is what is put on a connection's queue or taken by its writer; log lines (C113) are not counted: they do show the differences."
  },
  {
   "property": "C126",
   "status": "proved",
   "theorems": [
    "C126_how_often",
    "C126_failed_writes",
    "C126_channel_closed"
   ],
   "note": "C126_how_often: exact counts, as a function of the state reached; C126_channel_closed and C126_failed_writes: the two bounds. The handler's own lines are counted by C113."
  },
  {
   "property": "C127",
   "status": "proved",
   "theorems": [
    "C127_same",
    "C127_in_order",
    "C127_left_behind",
    "C127_failing",
    "C127_flood",
    "C127_shut_out"
   ],
   "note": "Accept.v puts the kernel's queues and the failing accepts around Sockets.v. C127_same (both directions), C127_in_order, C127_left_behind, C127_failing, C127_flood, C127_shut_out (with C100). A flaw: the loop of start_accepting neither waits nor gives up after an error. That tokio's accept stays ready after EMFILE is trusted (only WouldBlock clears the readiness)."
  },
  {
   "property": "C128",
   "status": "proved",
   "theorems": [
    "C128_turns",
    "C128_total",
    "C128_same",
    "C128_never_back",
    "C128_linear"
   ],
   "note": "C128_turns gives the turns of every task, C128_total all steps, C128_same compares two runs to one state, C128_never_back excludes cycles, C128_linear is the bound; C128_case runs one exchange in two orders."
  },
  {
   "property": "C129",
   "status": "proved",
   "theorems": [
    "C129_read",
    "C129_write",
    "C129_apart"
   ],
   "note": "C129_read and C129_write compare single calls, C129_apart sequences; C129_case interleaves two reads and a write."
  },
  {
   "property": "C130",
   "status": "proved",
   "theorems": [
    "C130_reading",
    "C130_writing"
   ],
   "note": "C130_reading and C130_writing; C130_case gives up a string after its size."
  },
  {
   "property": "C131",
   "status": "proved",
   "theorems": [
    "C131_log",
    "C131_same_runs",
    "C131_reading",
    "C131_first"
   ],
   "note": "C131_first is about the records before any task, C131_log gives those of main and of the service as a function of the state, C131_reading what can be inferred from them, C131_same_runs that the extra step of the service neither loses nor adds a state; C131_case runs two starts."
  },
  {
   "property": "C132",
   "status": "proved",
   "theorems": [
    "C132_new",
    "C132_every_kind",
    "C132_allowed",
    "C132_bytes"
   ],
   "note": "C132_new, C132_every_kind, C132_allowed (against a short independent list of MQTT's rules) and C132_bytes; C132_case shows a few."
  },
  {
   "property": "C133",
   "status": "proved",
   "theorems": [
    "C133_command_line",
    "C133_run",
    "C133_files",
    "C133_broker"
   ],
   "note": "C133_command_line characterises what is accepted as permutations of three options, C133_run gives the outcome of every run, C133_files what changes, C133_broker composes with C45 and C46; C133_case runs six command lines. How clap splits the words of a command line into options is not modelled."
  },
  {
   "property": "C134",
   "status": "proved",
   "theorems": [
    "C134_same_reads",
    "C134_packet",
    "C134_any",
    "C134_connection",
    "C134_segments",
    "C134_early",
    "C134_size",
    "C134_levels"
   ],
   "note": "The decoder is written again with the records (Traces.v) and proved to read the same (C134_same_reads). C134_packet and C134_connection are about packets that have been read, C134_any about every read, C134_segments about segmentation, C134_early about a CONNECT cut off before its password, C134_size and C134_levels about the texts; C134_case shows an unfinished CONNECT. A read that spins for ever has made a part of the records of one that does not."
  },
  {
   "property": "C135",
   "status": "proved",
   "theorems": [
    "C135_bytes_out",
    "C135_read_back",
    "C135_only_packets"
   ],
   "note": "C135_bytes_out is the equivalence, C135_read_back what a conforming client makes of the bytes, C135_only_packets the independence. It joins C92, C59 and C14. The limit of 4096 bytes is that of C15: beyond it a read may spin."
  },
  {
   "property": "C136",
   "status": "proved",
   "theorems": [
    "C136_same_start",
    "C136_spinning_never_ends",
    "C136_one_packet",
    "C136_ends",
    "C136_process_ends"
   ],
   "note": "Abort.v joins Startup.v and Teardown.v. C136_same_start relates it to C96; C136_spinning_never_ends and C136_one_packet are the first half, C136_ends and C136_process_ends the second. How deep the calls get when the tree of subscriptions is dropped is in C139."
  },
  {
   "property": "C137",
   "status": "proved",
   "theorems": [
    "C137_commit",
    "C137_no_commit",
    "C137_when_built",
    "C137_start"
   ],
   "note": "Launch.v models build.rs and how Cargo reads what it prints. C137_when_built says which builds succeed, C137_commit and C137_no_commit with which hash, C137_start what such a program does."
  },
  {
   "property": "C138",
   "status": "proved",
   "theorems": [
    "C138_set_stays",
    "C138_gets",
    "C138_others",
    "C138_rest_ignored",
    "C138_panics",
    "C138_password_file",
    "C138_not_listeners"
   ],
   "note": "Launch.v models the loading. C138_set_stays, C138_gets, C138_others, C138_rest_ignored and C138_panics say what happens to each variable; C138_password_file and C138_not_listeners what that means for the settings, by C110_last_counts and C109. How a line of .env is parsed is not modelled."
  },
  {
   "property": "C139",
   "status": "proved",
   "theorems": [
    "C139_same_start",
    "C139_which_step",
    "C139_aborts",
    "C139_never",
    "C139_shallow",
    "C139_every_run"
   ],
   "note": "Burst.v is Abort.v with the limits of Stack.v and Drop.v. C139_same_start and C139_shallow relate it to C136; C139_which_step says in which step it is aborted, C139_aborts after which events, C139_every_run that it does, C139_never when it cannot."
  },
  {
   "property": "C140",
   "status": "proved",
   "theorems": [
    "C140_session",
    "C140_untouched",
    "C140_running",
    "C140_expired",
    "C140_panics"
   ],
   "note": "Keep-alives are 16-bit numbers (C140_panics, C140_expired assume it; the reader delivers no others). C140_expired assumes times 98302 seconds or more before the end of chrono's range, C140_panics says what happens otherwise. C140_running connects histories to the states of the running broker."
  },
  {
   "property": "C141",
   "status": "proved",
   "theorems": [
    "C141_publish",
    "C141_same_as_handler",
    "C141_map",
    "C141_service",
    "C141_activity"
   ],
   "note": "A change through the reference of get_mut is any function on the session."
  },
  {
   "property": "C142",
   "status": "proved",
   "theorems": [
    "C142_handler",
    "C142_debug"
   ],
   "note": "Texts of SocketAddr, Sender and strings that are not ASCII are parameters (Logging.v library). The last event may still be in progress."
  },
  {
   "property": "C143",
   "status": "proved",
   "theorems": [
    "C143_reader",
    "C143_writer",
    "C143_others"
   ],
   "note": "The records of get_string, inside read_packet, are those of C134 and are not counted here. The list of packets read or taken is the one of System.v, which C50 and C61 relate to the bytes on the wire."
  },
  {
   "property": "C144",
   "status": "proved",
   "theorems": [
    "C144_ascii",
    "C144_packet",
    "C144_read",
    "C144_sent"
   ],
   "note": "That the numbers fit is proved for the packets of a run; what is needed for texts that are not ASCII is the premise `legible`, C144_ascii gives it for ASCII."
  },
  {
   "property": "C145",
   "status": "proved",
   "theorems": [
    "C145_ids",
    "C145_subscribe",
    "C145_others",
    "C145_ids_bound",
    "C145_names",
    "C145_run",
    "C145_visits",
    "C145_price"
   ],
   "note": "Bytes of strings only: capacity, hash table overhead and the sessions (C34) are not counted. The V visits are a history of events given to the handler; that a run of the whole program comes to such a history is shown for one visit (C145_case_run), not for all V and n. A SUBSCRIBE that fits a packet has a bounded n, V has no bound."
  },
  {
   "property": "C146",
   "status": "proved",
   "theorems": [
    "C146_number",
    "C146_told",
    "C146_lists",
    "C146_packets"
   ],
   "note": "The texts of QoS and Subscription are used nowhere in the program; the log has the Debug text (C142)."
  }
 ]
}