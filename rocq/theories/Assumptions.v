(** Assumptions of every theorem listed in MANIFEST.json, printed during the build. *)
From Verif Require Prop_abort Prop_any Prop_apart Prop_auth Prop_broker Prop_burst Prop_bytes Prop_causal Prop_codec Prop_config Prop_cost Prop_defaults Prop_display Prop_doom Prop_door Prop_drop Prop_duplex Prop_end Prop_exit Prop_fair Prop_fifo Prop_files Prop_flood Prop_full Prop_good Prop_held Prop_keepalive Prop_last Prop_launch Prop_library Prop_live Prop_live_fair Prop_log Prop_login Prop_matter Prop_memory Prop_mqtt Prop_passwd Prop_pool Prop_readback Prop_real Prop_records Prop_ref Prop_rest Prop_service Prop_settings Prop_sockets Prop_stack Prop_start Prop_startlog Prop_stop Prop_stranger Prop_stream Prop_subs Prop_system Prop_tasks Prop_tool Prop_traces Prop_traffic Prop_who Prop_work.

Print Assumptions Prop_abort.C136_same_start.
Print Assumptions Prop_abort.C136_spinning_never_ends.
Print Assumptions Prop_abort.C136_one_packet.
Print Assumptions Prop_abort.C136_ends.
Print Assumptions Prop_abort.C136_process_ends.
Print Assumptions Prop_any.C92_possible_orders.
Print Assumptions Prop_any.C92_possible_outcomes.
Print Assumptions Prop_any.C93_a_refused_client_stops_the_broker.
Print Assumptions Prop_apart.C108_only_messages_matter.
Print Assumptions Prop_apart.C108_as_if_alone.
Print Assumptions Prop_apart.C108_every_run.
Print Assumptions Prop_apart.C108_among_the_well_behaved.
Print Assumptions Prop_apart.C108_no_difference.
Print Assumptions Prop_auth.C40_exact.
Print Assumptions Prop_auth.C41_loads.
Print Assumptions Prop_auth.C41_rejects.
Print Assumptions Prop_auth.C41_every_content.
Print Assumptions Prop_auth.C41_entries.
Print Assumptions Prop_auth.C41_unreadable.
Print Assumptions Prop_auth.C40_file.
Print Assumptions Prop_auth.C40_session.
Print Assumptions Prop_broker.C30_suback.
Print Assumptions Prop_broker.C30_calls_before_sends.
Print Assumptions Prop_broker.C30_takes_effect.
Print Assumptions Prop_broker.C31_session_exactly_when_connected.
Print Assumptions Prop_broker.C32_session_belongs_to_owner.
Print Assumptions Prop_broker.C32_messages_go_to_owner.
Print Assumptions Prop_broker.C32_owner_gets_them.
Print Assumptions Prop_broker.C32_one_owner.
Print Assumptions Prop_broker.C33_never_set.
Print Assumptions Prop_broker.C33_session_present_refuted.
Print Assumptions Prop_broker.C33_truthful_when_nothing_kept_partial.
Print Assumptions Prop_broker.C34_session_count.
Print Assumptions Prop_broker.C34_ids_listed.
Print Assumptions Prop_broker.C35_ping.
Print Assumptions Prop_broker.C36_unsuback.
Print Assumptions Prop_broker.C36_takes_effect.
Print Assumptions Prop_broker.C37_only_writable.
Print Assumptions Prop_broker.C37_writer_never_panics.
Print Assumptions Prop_broker.C38_old_connection_ends_session.
Print Assumptions Prop_broker.C38_stale_disconnect_refuted.
Print Assumptions Prop_broker.C38_other_ids_cannot_partial.
Print Assumptions Prop_broker.C38_other_ids_subscriptions_partial.
Print Assumptions Prop_broker.C42_rejected_login.
Print Assumptions Prop_broker.C52_publish_reaches_subscribers.
Print Assumptions Prop_broker.C52_copies.
Print Assumptions Prop_broker.C22_in_the_broker.
Print Assumptions Prop_broker.C25_in_the_broker_partial.
Print Assumptions Prop_broker.C26_in_the_broker_partial.
Print Assumptions Prop_broker.C28_in_the_broker.
Print Assumptions Prop_burst.C139_same_start.
Print Assumptions Prop_burst.C139_which_step.
Print Assumptions Prop_burst.C139_aborts.
Print Assumptions Prop_burst.C139_never.
Print Assumptions Prop_burst.C139_shallow.
Print Assumptions Prop_burst.C139_every_run.
Print Assumptions Prop_bytes.C135_bytes_out.
Print Assumptions Prop_bytes.C135_read_back.
Print Assumptions Prop_bytes.C135_only_packets.
Print Assumptions Prop_causal.C118_one_order.
Print Assumptions Prop_causal.C118_no_two_orders.
Print Assumptions Prop_causal.C118_causal.
Print Assumptions Prop_codec.C01_remaining_length_round_trip.
Print Assumptions Prop_codec.C01_on_a_stream.
Print Assumptions Prop_codec.C02_four_byte_lengths_refuted.
Print Assumptions Prop_codec.C02_every_legal_length_refuted.
Print Assumptions Prop_codec.C02_refuted.
Print Assumptions Prop_codec.C02_accepted_lengths_partial.
Print Assumptions Prop_codec.C03_length_form.
Print Assumptions Prop_codec.C03_unique.
Print Assumptions Prop_codec.C03_at_most_four.
Print Assumptions Prop_codec.C04_publish_round_trip.
Print Assumptions Prop_codec.C05_ack_round_trip.
Print Assumptions Prop_codec.C06_connect_as_sent.
Print Assumptions Prop_codec.C06_length_fits.
Print Assumptions Prop_codec.C07_will_taken_for_credentials_refuted.
Print Assumptions Prop_codec.C07_connect_with_will_refuted.
Print Assumptions Prop_codec.C07_refuted.
Print Assumptions Prop_codec.C07_what_is_read_partial.
Print Assumptions Prop_codec.C07_binary_will_partial.
Print Assumptions Prop_codec.C08_subscribe_as_sent.
Print Assumptions Prop_codec.C09_unsubscribe_as_sent.
Print Assumptions Prop_codec.C10_accepted_exactly.
Print Assumptions Prop_codec.C10_fields_within_limits.
Print Assumptions Prop_codec.C10_malformed_never_accepted.
Print Assumptions Prop_codec.C11_strings_are_utf8.
Print Assumptions Prop_codec.C11_error_position.
Print Assumptions Prop_codec.C12_declared_length_consumed_partial.
Print Assumptions Prop_codec.C12_conforming_sequence_partial.
Print Assumptions Prop_codec.C12_boundaries_refuted.
Print Assumptions Prop_codec.C12_refuted.
Print Assumptions Prop_codec.C12_unchecked_lengths_refuted.
Print Assumptions Prop_codec.C13_no_packet_before_all_bytes.
Print Assumptions Prop_codec.C16_no_panic_refuted.
Print Assumptions Prop_codec.C16_refuted.
Print Assumptions Prop_codec.C16_qos3_refuted.
Print Assumptions Prop_codec.C16_panics_exactly_partial.
Print Assumptions Prop_codec.C16_stream_panics_partial.
Print Assumptions Prop_codec.C16_conforming_never_panics_partial.
Print Assumptions Prop_config.C124_other_name.
Print Assumptions Prop_config.C124_no_other_name.
Print Assumptions Prop_config.C124_every_path.
Print Assumptions Prop_config.C124_relative.
Print Assumptions Prop_config.C124_exact_name.
Print Assumptions Prop_config.C124_other_file.
Print Assumptions Prop_config.C124_any_extension.
Print Assumptions Prop_config.C124_default.
Print Assumptions Prop_config.C124_image.
Print Assumptions Prop_config.C124_image_panics.
Print Assumptions Prop_config.C124_image_variable.
Print Assumptions Prop_cost.C121_same_results.
Print Assumptions Prop_cost.C121_name.
Print Assumptions Prop_cost.C121_message.
Print Assumptions Prop_cost.C121_nodes.
Print Assumptions Prop_cost.C121_disconnect.
Print Assumptions Prop_cost.C121_pluses.
Print Assumptions Prop_defaults.C132_new.
Print Assumptions Prop_defaults.C132_every_kind.
Print Assumptions Prop_defaults.C132_allowed.
Print Assumptions Prop_defaults.C132_bytes.
Print Assumptions Prop_display.C146_number.
Print Assumptions Prop_display.C146_told.
Print Assumptions Prop_display.C146_lists.
Print Assumptions Prop_display.C146_packets.
Print Assumptions Prop_doom.C107_service_ends.
Print Assumptions Prop_doom.C107_ordinary_clients.
Print Assumptions Prop_door.C127_same.
Print Assumptions Prop_door.C127_in_order.
Print Assumptions Prop_door.C127_left_behind.
Print Assumptions Prop_door.C127_failing.
Print Assumptions Prop_door.C127_flood.
Print Assumptions Prop_door.C127_shut_out.
Print Assumptions Prop_drop.C123_same_broker.
Print Assumptions Prop_drop.C123_good_end.
Print Assumptions Prop_drop.C123_aborts.
Print Assumptions Prop_drop.C123_never.
Print Assumptions Prop_drop.C123_every_run.
Print Assumptions Prop_duplex.C129_read.
Print Assumptions Prop_duplex.C129_write.
Print Assumptions Prop_duplex.C129_apart.
Print Assumptions Prop_duplex.C130_reading.
Print Assumptions Prop_duplex.C130_writing.
Print Assumptions Prop_end.C122_spinning_never_ends.
Print Assumptions Prop_end.C122_one_packet.
Print Assumptions Prop_end.C122_rest.
Print Assumptions Prop_end.C122_every_run.
Print Assumptions Prop_end.C122_process_ends.
Print Assumptions Prop_exit.C57_every_run_partial.
Print Assumptions Prop_exit.C57_program_ends_partial.
Print Assumptions Prop_fair.C95_packets_handled.
Print Assumptions Prop_fair.C95_answers_sent.
Print Assumptions Prop_fair.C95_served.
Print Assumptions Prop_fair.C95_fair_runs.
Print Assumptions Prop_fifo.C119_same_states.
Print Assumptions Prop_fifo.C119_places.
Print Assumptions Prop_fifo.C119_weak_is_enough.
Print Assumptions Prop_fifo.C119_served.
Print Assumptions Prop_fifo.C119_place_after.
Print Assumptions Prop_fifo.C119_in_order.
Print Assumptions Prop_fifo.C119_fair_runs.
Print Assumptions Prop_files.C98_one_tool.
Print Assumptions Prop_files.C98_nobody_writes.
Print Assumptions Prop_files.C98_every_mix.
Print Assumptions Prop_files.C98_lost_update.
Print Assumptions Prop_files.C98_two_mixed.
Print Assumptions Prop_files.C98_empty.
Print Assumptions Prop_flood.C105_one_message_many_copies.
Print Assumptions Prop_flood.C105_others_wait.
Print Assumptions Prop_full.C142_handler.
Print Assumptions Prop_full.C142_debug.
Print Assumptions Prop_good.C101_no_harm.
Print Assumptions Prop_good.C101_all_served.
Print Assumptions Prop_good.C101_every_run.
Print Assumptions Prop_good.C101_delivered.
Print Assumptions Prop_good.C102_requests_after_disconnect.
Print Assumptions Prop_held.C145_ids.
Print Assumptions Prop_held.C145_subscribe.
Print Assumptions Prop_held.C145_others.
Print Assumptions Prop_held.C145_ids_bound.
Print Assumptions Prop_held.C145_names.
Print Assumptions Prop_held.C145_run.
Print Assumptions Prop_held.C145_visits.
Print Assumptions Prop_held.C145_price.
Print Assumptions Prop_keepalive.C55_leeway.
Print Assumptions Prop_keepalive.C55_deadline.
Print Assumptions Prop_keepalive.C55_one_and_a_half.
Print Assumptions Prop_last.C122_main_is_last.
Print Assumptions Prop_last.C122_left_over.
Print Assumptions Prop_launch.C137_commit.
Print Assumptions Prop_launch.C137_no_commit.
Print Assumptions Prop_launch.C137_when_built.
Print Assumptions Prop_launch.C137_start.
Print Assumptions Prop_launch.C138_set_stays.
Print Assumptions Prop_launch.C138_gets.
Print Assumptions Prop_launch.C138_others.
Print Assumptions Prop_launch.C138_rest_ignored.
Print Assumptions Prop_launch.C138_panics.
Print Assumptions Prop_launch.C110_last_counts.
Print Assumptions Prop_launch.C138_password_file.
Print Assumptions Prop_launch.C138_not_listeners.
Print Assumptions Prop_library.C140_session.
Print Assumptions Prop_library.C140_untouched.
Print Assumptions Prop_library.C140_running.
Print Assumptions Prop_library.C140_expired.
Print Assumptions Prop_library.C140_panics.
Print Assumptions Prop_library.C141_publish.
Print Assumptions Prop_library.C141_same_as_handler.
Print Assumptions Prop_library.C141_map.
Print Assumptions Prop_library.C141_service.
Print Assumptions Prop_library.C141_activity.
Print Assumptions Prop_live.C111_no_difference.
Print Assumptions Prop_live.C111_converse.
Print Assumptions Prop_live.C111_transfer.
Print Assumptions Prop_live.C111_reference.
Print Assumptions Prop_live.C111_comes_to_rest.
Print Assumptions Prop_live.C111_served.
Print Assumptions Prop_live_fair.C112_packets_handled.
Print Assumptions Prop_live_fair.C112_answers_sent.
Print Assumptions Prop_live_fair.C112_served.
Print Assumptions Prop_live_fair.C112_fair_runs.
Print Assumptions Prop_log.C113_handler.
Print Assumptions Prop_log.C113_levels.
Print Assumptions Prop_log.C113_others.
Print Assumptions Prop_log.C114_no_secrets.
Print Assumptions Prop_log.C114_others.
Print Assumptions Prop_log.C114_refusals.
Print Assumptions Prop_log.C115_passwords.
Print Assumptions Prop_log.C115_payloads.
Print Assumptions Prop_log.C115_payload_readable.
Print Assumptions Prop_log.C115_ascii_password_readable.
Print Assumptions Prop_log.C115_verbatim.
Print Assumptions Prop_log.C116_user_name.
Print Assumptions Prop_log.C116_client_id.
Print Assumptions Prop_login.C97_login.
Print Assumptions Prop_login.C97_answered.
Print Assumptions Prop_login.C97_after_set.
Print Assumptions Prop_login.C97_after_delete.
Print Assumptions Prop_matter.C125_exact.
Print Assumptions Prop_matter.C125_histories.
Print Assumptions Prop_matter.C125_at_rest.
Print Assumptions Prop_matter.C125_every_execution.
Print Assumptions Prop_memory.C120_unfinished.
Print Assumptions Prop_memory.C120_collects.
Print Assumptions Prop_memory.C120_collects_names.
Print Assumptions Prop_memory.C120_collects_short.
Print Assumptions Prop_memory.C120_collects_names_short.
Print Assumptions Prop_memory.C120_no_packet.
Print Assumptions Prop_memory.C120_reserved.
Print Assumptions Prop_memory.C120_six_bytes.
Print Assumptions Prop_memory.C120_stream.
Print Assumptions Prop_memory.C120_bound_reached.
Print Assumptions Prop_mqtt.C64_qos1_acknowledged_refuted.
Print Assumptions Prop_mqtt.C64_packets_sent.
Print Assumptions Prop_mqtt.C64_acks_ignored.
Print Assumptions Prop_mqtt.C65_delivered_at_granted_qos_refuted.
Print Assumptions Prop_mqtt.C65_grants_only_qos0.
Print Assumptions Prop_mqtt.C65_qos_of_the_publisher.
Print Assumptions Prop_mqtt.C66_second_connect_refuted.
Print Assumptions Prop_mqtt.C66_second_connect_ignored.
Print Assumptions Prop_mqtt.C67_takeover_closes_old_refuted.
Print Assumptions Prop_mqtt.C67_connect_is_private.
Print Assumptions Prop_mqtt.C68_only_live_messages.
Print Assumptions Prop_mqtt.C68_retained_messages_refuted.
Print Assumptions Prop_mqtt.C69_will_published_refuted.
Print Assumptions Prop_mqtt.C69_loss_is_silent.
Print Assumptions Prop_mqtt.C69_wills_never_seen.
Print Assumptions Prop_mqtt.C70_persistent_session_refuted.
Print Assumptions Prop_mqtt.C70_what_is_kept.
Print Assumptions Prop_mqtt.C71_clean_session_refuted.
Print Assumptions Prop_mqtt.C71_connect_keeps_subscriptions.
Print Assumptions Prop_mqtt.C71_clean_if_none_left.
Print Assumptions Prop_mqtt.C72_wildcard_names_refuted.
Print Assumptions Prop_mqtt.C72_copies_for_any_name.
Print Assumptions Prop_mqtt.C73_bad_filters_refused_refuted.
Print Assumptions Prop_mqtt.C73_inner_hash_is_dead.
Print Assumptions Prop_mqtt.C74_flags_cleared_refuted.
Print Assumptions Prop_mqtt.C74_flags_of_the_publisher.
Print Assumptions Prop_mqtt.C75_tree_is_pruned_refuted.
Print Assumptions Prop_mqtt.C75_tree_grows.
Print Assumptions Prop_mqtt.C75_unbounded.
Print Assumptions Prop_mqtt.C76_packet_ids_unique_refuted.
Print Assumptions Prop_mqtt.C76_ids_of_the_publishers.
Print Assumptions Prop_mqtt.C77_protocol_level_refuted.
Print Assumptions Prop_mqtt.C77_codes.
Print Assumptions Prop_mqtt.C78_credentials_decide.
Print Assumptions Prop_mqtt.C78_empty_id_refused_refuted.
Print Assumptions Prop_mqtt.C79_nothing_after_disconnect_refuted.
Print Assumptions Prop_mqtt.C79_all_packets_handled.
Print Assumptions Prop_mqtt.C80_ended_connection_closes_refuted.
Print Assumptions Prop_mqtt.C80_when_closed.
Print Assumptions Prop_mqtt.C81_one_session_per_connection.
Print Assumptions Prop_mqtt.C82_order_decides.
Print Assumptions Prop_passwd.C47_escaping.
Print Assumptions Prop_passwd.C47_replacement.
Print Assumptions Prop_passwd.C45_effect.
Print Assumptions Prop_passwd.C46_effect.
Print Assumptions Prop_passwd.C45_set_partial.
Print Assumptions Prop_passwd.C45_login_partial.
Print Assumptions Prop_passwd.C46_delete_partial.
Print Assumptions Prop_passwd.C46_absent_partial.
Print Assumptions Prop_passwd.C45_set_refuted.
Print Assumptions Prop_passwd.C45_duplicate_refuted.
Print Assumptions Prop_passwd.C45_no_newline_refuted.
Print Assumptions Prop_passwd.C46_delete_refuted.
Print Assumptions Prop_pool.C84_same_broker.
Print Assumptions Prop_pool.C84_spinning_overruns.
Print Assumptions Prop_pool.C84_free_worker.
Print Assumptions Prop_pool.C83_oversized_packets_stop_the_broker.
Print Assumptions Prop_pool.C84_all_runs.
Print Assumptions Prop_pool.C85_everything_gets_done.
Print Assumptions Prop_readback.C144_ascii.
Print Assumptions Prop_readback.C144_packet.
Print Assumptions Prop_readback.C144_read.
Print Assumptions Prop_readback.C144_sent.
Print Assumptions Prop_real.C117_order_grows.
Print Assumptions Prop_real.C117_answered_is_handled.
Print Assumptions Prop_real.C117_unsent_not_handled.
Print Assumptions Prop_real.C117_linearizable.
Print Assumptions Prop_real.C117_after_suback.
Print Assumptions Prop_records.C126_how_often.
Print Assumptions Prop_records.C126_failed_writes.
Print Assumptions Prop_records.C126_channel_closed.
Print Assumptions Prop_records.C115_printable.
Print Assumptions Prop_records.C115_escapes.
Print Assumptions Prop_records.C115_numbers.
Print Assumptions Prop_ref.C86_one_event.
Print Assumptions Prop_ref.C86_all_events.
Print Assumptions Prop_ref.C86_every_execution.
Print Assumptions Prop_ref.C86_at_rest.
Print Assumptions Prop_ref.C86_some_order.
Print Assumptions Prop_ref.C90_answers_in_order.
Print Assumptions Prop_ref.C90_all_answered.
Print Assumptions Prop_rest.C59_bytes_on_the_wire.
Print Assumptions Prop_rest.C59_client_reads.
Print Assumptions Prop_rest.C59_all_arrived.
Print Assumptions Prop_rest.C59_with_errors.
Print Assumptions Prop_rest.C60_dies_out.
Print Assumptions Prop_rest.C60_no_infinite_run.
Print Assumptions Prop_rest.C61_nothing_left_undone.
Print Assumptions Prop_rest.C62_everything_gets_done.
Print Assumptions Prop_rest.C63_message_arrives.
Print Assumptions Prop_service.C94_calls_succeed.
Print Assumptions Prop_service.C94_same_executions.
Print Assumptions Prop_service.C94_all_executions.
Print Assumptions Prop_service.C94_nobody_else_waits.
Print Assumptions Prop_service.C94_rest.
Print Assumptions Prop_service.C94_every_run.
Print Assumptions Prop_settings.C109_listeners_from_file.
Print Assumptions Prop_settings.C109_variables_take_precedence_refuted.
Print Assumptions Prop_settings.C109_variable_stops_the_start.
Print Assumptions Prop_settings.C109_program_panics.
Print Assumptions Prop_settings.C110_password_file_overridden.
Print Assumptions Prop_settings.C110_without_variables.
Print Assumptions Prop_settings.C110_not_unicode.
Print Assumptions Prop_settings.C110_order_decides.
Print Assumptions Prop_settings.C109_any_case.
Print Assumptions Prop_settings.C109_plain.
Print Assumptions Prop_sockets.C100_open_at_rest.
Print Assumptions Prop_sockets.C100_none_closed.
Print Assumptions Prop_sockets.C100_limit_kept.
Print Assumptions Prop_sockets.C100_full_for_ever.
Print Assumptions Prop_sockets.C100_can_be_filled.
Print Assumptions Prop_sockets.C100_nobody_else.
Print Assumptions Prop_stack.C99_height.
Print Assumptions Prop_stack.C99_same_broker.
Print Assumptions Prop_stack.C99_aborts.
Print Assumptions Prop_stack.C99_never_passes.
Print Assumptions Prop_stack.C99_possible_orders.
Print Assumptions Prop_stack.C99_takes_down.
Print Assumptions Prop_stack.C99_one_client.
Print Assumptions Prop_stack.C99_never.
Print Assumptions Prop_stack.C99_limit.
Print Assumptions Prop_start.C96_prepared.
Print Assumptions Prop_start.C96_started.
Print Assumptions Prop_start.C96_starting.
Print Assumptions Prop_start.C96_all.
Print Assumptions Prop_start.C96_no_address.
Print Assumptions Prop_startlog.C131_log.
Print Assumptions Prop_startlog.C131_same_runs.
Print Assumptions Prop_startlog.C131_reading.
Print Assumptions Prop_startlog.C131_first.
Print Assumptions Prop_stop.C87_rest.
Print Assumptions Prop_stop.C87_every_run.
Print Assumptions Prop_stop.C88_a_client_that_stops_reading_stops_the_broker.
Print Assumptions Prop_stop.C89_a_user_name_without_password_stops_the_broker.
Print Assumptions Prop_stranger.C103_never_again.
Print Assumptions Prop_stranger.C103_anybody_ends_any_session.
Print Assumptions Prop_stranger.C104_anybody_reads_everything.
Print Assumptions Prop_stream.C14_allocation_choices.
Print Assumptions Prop_stream.C14_segmentation_irrelevant.
Print Assumptions Prop_stream.C14_from_any_state.
Print Assumptions Prop_stream.C14_first_4096_bytes.
Print Assumptions Prop_stream.C15_large_publish_spins_refuted.
Print Assumptions Prop_stream.C15_spin_is_divergence.
Print Assumptions Prop_stream.C15_reading_finishes_refuted.
Print Assumptions Prop_stream.C15_refuted.
Print Assumptions Prop_stream.C15_spins_exactly_partial.
Print Assumptions Prop_stream.C15_small_packets_finish_partial.
Print Assumptions Prop_stream.C15_first_4096_bytes_partial.
Print Assumptions Prop_stream.C17_client_understands.
Print Assumptions Prop_stream.C17_other_kinds_not_written.
Print Assumptions Prop_stream.C18_bytes_once_in_order.
Print Assumptions Prop_stream.C18_from_any_state.
Print Assumptions Prop_stream.C18_with_errors.
Print Assumptions Prop_stream.C18_errors_break_framing.
Print Assumptions Prop_stream.C19_handed_to_socket_refuted.
Print Assumptions Prop_stream.C19_refuted.
Print Assumptions Prop_stream.C19_whole_writes_partial.
Print Assumptions Prop_stream.C19_suffix_missing_partial.
Print Assumptions Prop_stream.C20_writing_finishes.
Print Assumptions Prop_stream.C20_states_wellformed.
Print Assumptions Prop_stream.C21_relay.
Print Assumptions Prop_subs.C22_selected_exactly.
Print Assumptions Prop_subs.C22_filters_listed.
Print Assumptions Prop_subs.C22_as_mqtt.
Print Assumptions Prop_subs.C23_parent_never_selected.
Print Assumptions Prop_subs.C23_hash_matches_parent_refuted.
Print Assumptions Prop_subs.C23_below_root_partial.
Print Assumptions Prop_subs.C24_dollar_topics_selected.
Print Assumptions Prop_subs.C24_wildcards_skip_dollar_refuted.
Print Assumptions Prop_subs.C24_agrees_with_mqtt_partial.
Print Assumptions Prop_subs.C24_missed_exactly.
Print Assumptions Prop_subs.C24_extra_exactly.
Print Assumptions Prop_subs.C25_one_copy_per_mention.
Print Assumptions Prop_subs.C25_unsubscribe_stops_delivery_refuted.
Print Assumptions Prop_subs.C25_unsubscribe_stops_delivery_partial.
Print Assumptions Prop_subs.C25_others_unaffected.
Print Assumptions Prop_subs.C26_disconnect_forgets_refuted.
Print Assumptions Prop_subs.C26_one_copy_each.
Print Assumptions Prop_subs.C26_disconnect_forgets_partial.
Print Assumptions Prop_subs.C26_others_unaffected.
Print Assumptions Prop_subs.C27_no_interference.
Print Assumptions Prop_subs.C28_each_request_adds_a_copy.
Print Assumptions Prop_subs.C28_replaces_refuted.
Print Assumptions Prop_subs.C28_copies_accumulate_partial.
Print Assumptions Prop_subs.C29_one_copy_per_subscription_partial.
Print Assumptions Prop_subs.C29_exponential_copies.
Print Assumptions Prop_subs.C29_at_most_one_copy_refuted.
Print Assumptions Prop_system.C48_connack_first_and_once.
Print Assumptions Prop_system.C48_connack_code.
Print Assumptions Prop_system.C49_nothing_before_connect.
Print Assumptions Prop_system.C50_no_invented_messages.
Print Assumptions Prop_system.C50_read_before_sent.
Print Assumptions Prop_system.C51_messages_in_order.
Print Assumptions Prop_system.C53_why_the_handler_ends.
Print Assumptions Prop_system.C53_an_ended_handler_does_nothing.
Print Assumptions Prop_system.C44_no_client_can_crash_refuted.
Print Assumptions Prop_system.C44_crash_by_ping_refuted.
Print Assumptions Prop_system.C44_no_other_crash_partial.
Print Assumptions Prop_system.C43_refused_has_no_effect_refuted.
Print Assumptions Prop_system.C43_refused_gets_nothing_partial.
Print Assumptions Prop_system.C54_slow_subscriber_stalls_nobody_refuted.
Print Assumptions Prop_system.C54_next_event_partial.
Print Assumptions Prop_system.C54_stalled_for_ever_partial.
Print Assumptions Prop_system.C57_shutdown_completes_refuted.
Print Assumptions Prop_system.C57_shutdown_partial.
Print Assumptions Prop_system.C57_exit_after_handler.
Print Assumptions Prop_system.C58_queues_bounded.
Print Assumptions Prop_system.C56_idle_clients_are_disconnected_refuted.
Print Assumptions Prop_system.C56_reasons_to_close_partial.
Print Assumptions Prop_system.C39_lost_connection_cleaned_up_refuted.
Print Assumptions Prop_system.C39_only_disconnect_ends_a_session_partial.
Print Assumptions Prop_tasks.C143_reader.
Print Assumptions Prop_tasks.C143_writer.
Print Assumptions Prop_tasks.C143_others.
Print Assumptions Prop_tool.C133_command_line.
Print Assumptions Prop_tool.C133_run.
Print Assumptions Prop_tool.C133_files.
Print Assumptions Prop_tool.C133_broker.
Print Assumptions Prop_traces.C134_same_reads.
Print Assumptions Prop_traces.C134_packet.
Print Assumptions Prop_traces.C134_any.
Print Assumptions Prop_traces.C134_connection.
Print Assumptions Prop_traces.C134_segments.
Print Assumptions Prop_traces.C134_early.
Print Assumptions Prop_traces.C134_size.
Print Assumptions Prop_traces.C134_levels.
Print Assumptions Prop_traffic.C106_ordinary_traffic_spins.
Print Assumptions Prop_traffic.C106_steady_publisher.
Print Assumptions Prop_who.C91_who_gets_a_message.
Print Assumptions Prop_who.C91_only_what_it_asked_for_refuted.
Print Assumptions Prop_who.C91_asked_for_by_clients_let_in_refuted.
Print Assumptions Prop_work.C128_turns.
Print Assumptions Prop_work.C128_total.
Print Assumptions Prop_work.C128_same.
Print Assumptions Prop_work.C128_never_back.
Print Assumptions Prop_work.C128_linear.
