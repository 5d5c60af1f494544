-Q theories Verif
theories/Base.v
theories/Base_facts.v
theories/Utf8.v
theories/Spec_utf8.v
theories/Utf8_facts.v
theories/Packets.v
theories/Spec_wire.v
theories/Decoder.v
theories/ReadStream.v
theories/Plain.v
theories/Encoder.v
theories/WriteStream.v
theories/RepoTests.v
theories/ReadStream_facts.v
theories/Plain_facts.v
theories/Decoder_facts.v
theories/Conn.v
theories/Panic_facts.v
theories/Hang_facts.v
theories/Encoder_facts.v
theories/Conform_facts.v
theories/WriteStream_facts.v
theories/Conn_facts.v
theories/Prop_codec.v
theories/Prop_stream.v
theories/HashMap.v
theories/Subscriptions.v
theories/Spec_subs.v
theories/Subscriptions_facts.v
theories/Prop_subs.v
theories/RepoTests_subs.v
theories/Messaging.v
theories/Handler.v
theories/Spec_broker.v
theories/Handler_facts.v
theories/Prop_broker.v
theories/System.v
theories/System_facts.v
theories/System_hist.v
theories/System_conn.v
theories/System_queue.v
theories/System_first.v
theories/System_progress.v
theories/System_exit.v
theories/Prop_system.v
theories/KeepAlive.v
theories/Prop_keepalive.v
theories/Auth.v
theories/Passwd.v
theories/Prop_auth.v
theories/Prop_passwd.v
theories/System_rest.v
theories/Prop_rest.v
theories/Spec_ref.v
theories/Prop_mqtt.v
theories/Pool.v
theories/Prop_pool.v
theories/Prop_ref.v
theories/Prop_stop.v
theories/Prop_who.v
theories/Prop_any.v
theories/Service.v
theories/Service_facts.v
theories/Prop_service.v
theories/System_fair.v
theories/Prop_fair.v
theories/Startup.v
theories/Prop_start.v
theories/Prop_login.v
theories/Files.v
theories/Prop_files.v
theories/Stack.v
theories/Prop_stack.v
theories/Sockets.v
theories/Prop_sockets.v
theories/Prop_good.v
theories/Prop_stranger.v
theories/Prop_flood.v
theories/Traffic_facts.v
theories/Prop_traffic.v
theories/Prop_doom.v
theories/Prop_apart.v
theories/Prop_exit.v
theories/Settings.v
theories/Prop_settings.v
theories/Live.v
theories/Live_facts.v
theories/Prop_live.v
theories/Live_fair.v
theories/Prop_live_fair.v
theories/Logging.v
theories/Log_facts.v
theories/Prop_log.v
theories/Prop_real.v
theories/Prop_causal.v
theories/Fifo.v
theories/Fifo_facts.v
theories/Prop_fifo.v
theories/Prop_memory.v
theories/Prop_cost.v
theories/Teardown.v
theories/Prop_end.v
theories/Drop.v
theories/Prop_drop.v
theories/ConfigFile.v
theories/Prop_config.v
theories/Prop_matter.v
theories/Prop_records.v
theories/Accept.v
theories/Prop_door.v
theories/Prop_work.v
theories/Duplex.v
theories/Prop_duplex.v
theories/StartLog.v
theories/Prop_startlog.v
theories/Defaults.v
theories/Prop_defaults.v
theories/Tool.v
theories/Prop_tool.v
theories/Traces.v
theories/Prop_traces.v
theories/Prop_last.v
theories/Prop_bytes.v
theories/Abort.v
theories/Prop_abort.v
theories/Launch.v
theories/Prop_launch.v
theories/Burst.v
theories/Prop_burst.v
theories/Library.v
theories/Prop_library.v
theories/Prop_full.v
theories/Prop_tasks.v
theories/Prop_readback.v
theories/Prop_held.v
theories/Prop_display.v
theories/Assumptions.v
