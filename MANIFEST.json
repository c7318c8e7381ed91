{
 "claims": [
  {
   "property": "C01",
   "status": "proved",
   "theorems": [
    "C01_bijection_inverse"
   ],
   "note": ""
  },
  {
   "property": "C02",
   "status": "proved",
   "theorems": [
    "C02_bijection_refines_relation",
    "C02_bijection_outcomes"
   ],
   "note": ""
  },
  {
   "property": "C03",
   "status": "proved",
   "theorems": [
    "C03_bijection_views_read",
    "C03_bijection_inverse_view",
    "C03_bijection_immutable_views"
   ],
   "note": ""
  },
  {
   "property": "C04",
   "status": "proved",
   "theorems": [
    "C04_hierdict_is_flat_map",
    "C04_hierdict_outcomes",
    "C04_C05_hierdict_any_handler"
   ],
   "note": ""
  },
  {
   "property": "C05",
   "status": "proved",
   "theorems": [
    "C05_hierdict_iteration",
    "C04_C05_hierdict_any_handler",
    "C05_hierdict_contract_alone_refuted"
   ],
   "note": "C05_hierdict_contract_alone_refuted: the documented handler contract alone is not enough; the theorem for the default handlers is full."
  },
  {
   "property": "C06",
   "status": "proved",
   "theorems": [
    "C06_version_roundtrip",
    "C06_version_equality",
    "C06_version_accepts"
   ],
   "note": ""
  },
  {
   "property": "C07",
   "status": "proved",
   "theorems": [
    "C07_address_roundtrip",
    "C07_address_equality",
    "C07_address_only_valid",
    "C07_address_accepts",
    "C07_valid_string_accepted_refuted",
    "C07_spelling_preserved_refuted"
   ],
   "note": "Full round trip proved; the two _refuted theorems record that isValid accepts spellings FromString does not preserve and rejects/accepts others."
  },
  {
   "property": "C08",
   "status": "proved",
   "theorems": [
    "C08_parent_chain",
    "C08_parent_one_step",
    "C08_prefix_chain_reaches_root",
    "C08_any_chain_reaches_root_refuted"
   ],
   "note": "Chains of prefix-shaped blocks reach *.*.*.*; C08_any_chain_reaches_root_refuted shows other blocks end elsewhere."
  },
  {
   "property": "C09",
   "status": "proved",
   "theorems": [
    "C09_is_parent_block",
    "C09_is_parent_block_order",
    "C09_spawn_address",
    "C09_spawn_uses_draws",
    "C09_prefix_string"
   ],
   "note": ""
  },
  {
   "property": "C10",
   "status": "proved",
   "theorems": [
    "C10_switch_tables_agree",
    "C10_switch_invalid_register"
   ],
   "note": ""
  },
  {
   "property": "C11",
   "status": "proved",
   "theorems": [
    "C11_switch_outbound_exact",
    "C11_switch_outbound_five",
    "C11_switch_outbound_sound",
    "C11_switch_outbound_invalid",
    "C11_switch_all_containing_blocks_refuted",
    "C11_switch_noncanonical_refuted",
    "C11_switch_negative_destination_refuted"
   ],
   "note": "Exact on every destination; _refuted theorems record the cases where blocks are missed."
  },
  {
   "property": "C12",
   "status": "proved",
   "theorems": [
    "C12_portkey_inverse",
    "C12_portkey_sided"
   ],
   "note": ""
  },
  {
   "property": "C13",
   "status": "proved",
   "theorems": [
    "C13_updateable_is_fifo",
    "C13_updateable_conserves_bytes",
    "C13_peek_zero_refuted"
   ],
   "note": "peek(0) returns everything (C13_peek_zero_refuted); all other calls proved."
  },
  {
   "property": "C14",
   "status": "proved",
   "theorems": [
    "C14_mincopy_exact",
    "C14_mincopy_next_get",
    "C14_mincopy_counts",
    "C14_mincopy_seek_rereads",
    "C14_mincopy_closed_reads_nothing",
    "C14_mincopy_seek_cur_refuted",
    "C14_mincopy_memsize_refuted",
    "C14_mincopy_seekable_cross_refuted",
    "C14_mincopy_in_order",
    "C14_mincopy_in_order_refuted",
    "C14_mincopy_read_zero_refuted"
   ],
   "note": "Refinement of the buffer/position lists by a chunk layout (MincopySpec.v) for every history; the in-order property itself is false of the code and refuted, the exact behaviour is proved."
  },
  {
   "property": "C15",
   "status": "proved",
   "theorems": [
    "C15_packet_roundtrip",
    "C15_flat_packet_roundtrip",
    "C15_encoding_prefix_free",
    "C15_nonascii_refuted",
    "C15_boundary_string_refuted",
    "C15_nested_then_longer_refuted"
   ],
   "note": "Proved for the stated packets. Refuted parts recorded: any non-ASCII string (C15_nonascii_refuted), 65536-character strings raise struct.error rather than PacketEncodingError, and a field longer than a preceding nested packet cannot be decoded (C15_nested_then_longer_refuted). Float fields are not modelled."
  },
  {
   "property": "C16",
   "status": "proved",
   "theorems": [
    "C16_C17_C18_packets_received_so_far",
    "C16_segmentation_independent",
    "C16_segmentation_of_foreign_bytes_refuted"
   ],
   "note": "Proved for streams of packets with garbage; for bytes that are not packets the outcome depends on the segmentation (C16_segmentation_of_foreign_bytes_refuted)."
  },
  {
   "property": "C17",
   "status": "proved",
   "theorems": [
    "C16_C17_C18_packets_received_so_far",
    "C17_concatenation_decodes"
   ],
   "note": ""
  },
  {
   "property": "C18",
   "status": "proved",
   "theorems": [
    "C16_C17_C18_packets_received_so_far",
    "C18_prefix_yields_nothing",
    "C18_deserialize_of_prefix_hangs"
   ],
   "note": "Deserializer part proved; Packet.Deserialize on a prefix loops for ever (C18_deserialize_of_prefix_hangs)."
  },
  {
   "property": "C19",
   "status": "proved",
   "theorems": [
    "C19_garbage_is_skipped",
    "C19_recovers_after_error",
    "C19_stays_within_declared_length_refuted"
   ],
   "note": "Proved; the former claim that the decoder never reads past the declared length is false (C19_stays_within_declared_length_refuted)."
  },
  {
   "property": "C20",
   "status": "proved",
   "theorems": [
    "C20_tags_as_specified",
    "C20_tags_distinct"
   ],
   "note": ""
  },
  {
   "property": "C21",
   "status": "proved",
   "theorems": [
    "C21_unset_required_reported",
    "C21_unset_optional_free",
    "C21_decoder_accepts_unset_required_refuted"
   ],
   "note": "Encoder side proved as an equivalence; the decoder does not check required fields (C21_decoder_accepts_unset_required_refuted)."
  },
  {
   "property": "C22",
   "status": "proved",
   "theorems": [
    "C22_assignment_accepts_exactly",
    "C22_packet_equality",
    "C22_uint_width",
    "C22_constructor_accepts_exactly",
    "C22_accepted_uint_encodes",
    "C22_int_signed_range_refuted",
    "C22_failed_assignment_stores_value_refuted",
    "C22_uncloned_field_accepts_overflow_refuted",
    "C22_rewidened_field_keeps_limit_refuted"
   ],
   "note": "Exact characterisation proved for every declaration, value and history. Refuted parts recorded: a rejected value is nevertheless stored (proved in general), INT fields have no lower bound and accept values above the signed range, an uncloned field accepts 2**n, re-declaring a width keeps the old maximum."
  },
  {
   "property": "C23",
   "status": "proved",
   "theorems": [
    "C23_list_field_is_a_list",
    "C23_copy_from_list_field",
    "C23_failed_append_extends_list_refuted",
    "C23_failed_append_leaves_unset_refuted",
    "C23_unset_does_not_clear_refuted",
    "C23_assign_equal_keeps_old_objects_refuted",
    "C23_nan_copy_unequal_refuted",
    "C23_negative_zero_lost_refuted"
   ],
   "note": "Equivalence with a plain list proved for acceptable values; refuted parts recorded: a failing append leaves an element behind, assigning UNSET does not clear, assigning an equal list keeps the old objects. List fields of lists are not modelled."
  },
  {
   "property": "C24",
   "status": "proved",
   "theorems": [
    "C24_lookup_returns_registered",
    "C24_most_recent",
    "C24_missing_version_raises_refuted",
    "C24_most_recent_negative_refuted",
    "C24_iteration",
    "C24_class_statement",
    "C24_second_version_cannot_be_defined_refuted",
    "C24_explicit_silo_refuted"
   ],
   "note": "Proved for registered pairs, unknown identifiers and most-recent lookups; refuted parts recorded: an absent version of a known identifier raises NameError (proved in general), so a second version of an identifier cannot be defined by a class statement; negative versions break MOST_RECENT; an explicit silo name raises UnboundLocalError."
  },
  {
   "property": "C25",
   "status": "proved",
   "theorems": [
    "C25_accepts_exactly_well_formed",
    "C25_write_appends_frame",
    "C25_read_back",
    "C25_read_back_whole",
    "C25_header_byte_detected",
    "C25_trailer_change_detected",
    "C25_truncated_not_closed",
    "C25_recovery",
    "C25_payload_unprotected",
    "C25_size_change_undetected",
    "C25_no_progress_on_bad_checksum",
    "C25_read_crosses_frame_end",
    "C25_empty_frame_not_writable"
   ],
   "note": "Also proved, as limits of the code: payload bytes are not covered by any checksum; the header for size 512 and 65537 have the same checksum; a refused header starting with the magic makes no progress; a read can cross the end of the frame into the following bytes; closing an unwritten frame raises struct.error."
  },
  {
   "property": "C26",
   "status": "proved",
   "theorems": [
    "C26_fires_at_most_once_per_start",
    "C26_not_before_delay",
    "C26_not_before_extension",
    "C26_not_after_cancel",
    "C26_when_due",
    "C26_double_start_refuted",
    "C26_restart_refuted",
    "C26_cancel_before_start",
    "C26_extensions_do_not_add"
   ],
   "note": "Any event loop that runs a handle not before its time and not after cancellation (asyncio). Times are integers in the model. On TestLoopEx call_later returns None, so cancel and expire raise AttributeError there; noted, not modelled as a combined system."
  },
  {
   "property": "C27",
   "status": "proved",
   "theorems": [
    "C27_runs_in_order",
    "C27_due_only",
    "C27_times_nondecreasing",
    "C27_exactly_once",
    "C27_spec_deterministic",
    "C27_periodic_runs_once"
   ],
   "note": "TestLoopEx offers no cancellation (call_later returns None). Due times of callbacks scheduled while advancing count from the clock after the jump (C27_periodic_runs_once)."
  },
  {
   "property": "C28",
   "status": "proved",
   "theorems": [
    "C28_small_is_one_packet",
    "C28_large_is_cut",
    "C28_write_sizes",
    "C28_incomplete_never_delivered",
    "C28_delivered_once_when_complete",
    "C28_any_order",
    "C28_unfragmented_delivered",
    "C28_batches",
    "C28_refuted_stale_delivery",
    "C28_refuted_full_duplicate",
    "C28_refuted_id_collision"
   ],
   "note": "One decoded packet per call is the full statement; C28_batches relates calls with several packets to it and C28_refuted_* show the three ways in which the unqualified claim fails. fragId is a parameter (random.getrandbits)."
  },
  {
   "property": "C29",
   "status": "proved",
   "theorems": [
    "C29_dispatch_exact",
    "C29_in_order_once",
    "C29_nothing_after_loss",
    "C29_refuted_poison_delays"
   ],
   "note": "Links are registered in asyncio's contract (data only while connected). C29_refuted_poison_delays: a destination with a negative part delays what follows it."
  },
  {
   "property": "C30",
   "status": "proved",
   "theorems": [
    "C30_exactly_the_drawn_bytes",
    "C30_length_preserved",
    "C30_rate",
    "C30_delay_keeps_writes",
    "C30_refuted_delay_order",
    "C30_refuted_changed_settings",
    "C30_refuted_changed_settings_raise",
    "C30_layers_length",
    "C30_refuted_rate_after_reannounce"
   ],
   "note": "Random draws are universally quantified parameters."
  },
  {
   "property": "C31",
   "status": "proved",
   "theorems": [
    "C31_connect",
    "C31_connect_total",
    "C31_listen",
    "C31_id_in_use",
    "C31_owner"
   ],
   "note": "Port exhaustion hangs the process (C31_connect_total); a refused listen keeps its connection id (C31_refused_listen_keeps_id)."
  },
  {
   "property": "C32",
   "status": "proved",
   "theorems": [
    "C32_existing",
    "C32_listener",
    "C32_dropped",
    "C32_right_transport",
    "C32_dumps"
   ],
   "note": ""
  },
  {
   "property": "C33",
   "status": "proved",
   "theorems": [
    "C33_in_order",
    "C33_attach"
   ],
   "note": ""
  },
  {
   "property": "C34",
   "status": "proved",
   "theorems": [
    "C34_close",
    "C34_lost",
    "C34_close_frame"
   ],
   "note": "Refuted in part: connections whose reverse connection is still being opened survive the close (C34_pending_leaks, C34_failed_spawn_leaks); the statement excludes exactly those."
  },
  {
   "property": "C35",
   "status": "proved",
   "theorems": [
    "C35_clamped",
    "C35_announced",
    "C35_block"
   ],
   "note": "Also shown: losing the old link after a reconnect disconnects the VNIC from the new one (C35_reconnect_refuted); setPromiscuousLevel raises while reconnecting (C35_raises_refuted)."
  },
  {
   "property": "C36",
   "status": "proved",
   "theorems": [
    "C36_fresh_ids",
    "C36_answered_once",
    "C36_only_requests",
    "C36_spawn_passed_on",
    "C36_in_order",
    "C36_exceptions",
    "C36_refuted_late_answer",
    "C36_refuted_given_up_still_connected",
    "C36_refuted_second_spawn"
   ],
   "note": "Application factories and completeCallback are taken not to raise. Refuted: the late answer to a timed-out request raises in data_received and holds back the packets behind it; a timed-out connect is still connected; a second spawn for a connect is built as server side."
  },
  {
   "property": "C37",
   "status": "proved",
   "theorems": [
    "C37_paired_in_order",
    "C37_at_most_once",
    "C37_data_in_order",
    "C37_connections",
    "C37_loss_reported_once",
    "C37_refuted_lost_early",
    "C37_refuted_port_reuse",
    "C37_refuted_two_vnics"
   ],
   "note": "Stack and application code is taken not to raise. Refuted: a connection lost before its notification is still built on later; a reused port's notification is dropped with the old connection; connection ids of two VNICs collide."
  },
  {
   "property": "C38",
   "status": "proved",
   "theorems": [
    "C38_chain_in_order",
    "C38_call_succeeds",
    "C38_classes_in_order",
    "C38_application_on_top",
    "C38_refuted_nested"
   ],
   "note": "Refuted: a stack factory nested in another contributes only its lowest protocol."
  },
  {
   "property": "C39",
   "status": "proved",
   "theorems": [
    "C39_shortest",
    "C39_next_hop",
    "C39_always_valid",
    "C39_calls"
   ],
   "note": "Finding: a setDirectConnections call naming an unknown location changes the direct connections of the named one (up to the unknown entry) but leaves the routes un-updated (Example C39_failed_call_leaves_routes_behind). The transports of the direct links are modelled in WanNetModel.v."
  },
  {
   "property": "C40",
   "status": "proved",
   "theorems": [
    "C40_requests",
    "C40_unauthorised_harmless",
    "C40_local_access",
    "C40_answer",
    "C40_mixed_stream",
    "C40_failures_reported_refuted",
    "C40_success_reported_refuted",
    "C40_close_stops_refuted"
   ],
   "note": "Full. Refuted variants recorded: an exception without a message is reported as success, an error text sent in a request comes back with a successful answer, and requests after a refused one in the same data still run."
  },
  {
   "property": "C41",
   "status": "proved",
   "theorems": [
    "C41_lookup",
    "C41_bad_route_refuted",
    "C41_ownership",
    "C41_default_taken_refuted"
   ],
   "note": "Lookup for every table whose routes are blocks; ownership. Refuted: invalid routes accepted, default can be taken."
  },
  {
   "property": "C42",
   "status": "proved",
   "theorems": [
    "C42_no_bytes_lost",
    "C42_input_recorded",
    "C42_upcalls",
    "C42_nothing_held_back",
    "C42_terminates",
    "C42_chunk_independent",
    "C42_long_line",
    "C42_when_it_ends",
    "C42_chunks_at_limit_refuted",
    "C42_asyncio_one_line_per_call",
    "C42_asyncio_all_lines_refuted"
   ],
   "note": "LineModel.v: full state machine, subclass methods as an arbitrary function returning actions; str/bytes mismatch of CLIShell.delimiter not modelled"
  },
  {
   "property": "C43",
   "status": "proved",
   "theorems": [
    "C43_padding",
    "C43_cipher_exact",
    "C43_roundtrip",
    "C43_refused",
    "C43_unverified_never_decrypted",
    "C43_forgery_needs_tag",
    "C43_one_message",
    "C43_same_object_refuted",
    "C43_cipher_length_refuted",
    "C43_failed_encrypt_reusable_refuted"
   ],
   "note": "Full, AES and SHA1-HMAC being arbitrary functions with the stated laws. Refuted variants: an object cannot decrypt after it encrypted (decrypt finalizes the encrypter), the bare cipher ignores a trailing partial block, a failed RSA encrypt uses the object up."
  },
  {
   "property": "C44",
   "status": "proved",
   "theorems": [
    "C44_next_packets_terminates"
   ],
   "note": ""
  },
  {
   "property": "C45",
   "status": "proved",
   "theorems": [
    "C45_delivered_packets_well_formed"
   ],
   "note": ""
  },
  {
   "property": "C46",
   "status": "proved",
   "theorems": [
    "C46_silo_block_restores_current",
    "C46_silo_block_isolates",
    "C46_base_silo",
    "C46_new_silo",
    "C46_auto_names_fresh"
   ],
   "note": ""
  },
  {
   "property": "C47",
   "status": "proved",
   "theorems": [
    "C47_calls_reach_the_bottom",
    "C47_extra_info"
   ],
   "note": "Sharing one extra dictionary between two transports is not modelled."
  },
  {
   "property": "C48",
   "status": "proved",
   "theorems": [
    "C48_query_returns_its_id",
    "C48_answered_queries_return",
    "C48_answered_return_any_order_refuted",
    "C48_fresh_answer_refuted"
   ],
   "note": "Full under the stated ordering; C48_answered_return_any_order_refuted: with answers in another order the single notify wakes the wrong query and the answered one waits forever; C48_fresh_answer_refuted: a reused id returns the old answer."
  },
  {
   "property": "C49",
   "status": "proved",
   "theorems": [
    "C49_chain_accepted",
    "C49_chain_refused",
    "C49_names",
    "C49_self_signature_checked_refuted"
   ],
   "note": "Full. C49_self_signature_checked_refuted: the last certificate's own signature is never looked at, so a single certificate is always accepted."
  },
  {
   "property": "C50",
   "status": "proved",
   "theorems": [
    "C50_commands",
    "C50_history",
    "C50_consistent",
    "C50_route_removal_refuted",
    "C50_capital_name_refuted",
    "C50_interface_settings",
    "C50_access_point_settings"
   ],
   "note": "Refinement of every history to an abstract network. Refuted parts (route removal not saved, capital letters) are theorems."
  },
  {
   "property": "C51",
   "status": "proved",
   "theorems": [
    "C51_status",
    "C51_truthful",
    "C51_no_error",
    "C51_errors",
    "C51_usable",
    "C51_enable",
    "C51_enable_others",
    "C51_enable_keeps",
    "C51_enable_stranded_refuted",
    "C51_enable_twice",
    "C51_enable_unconnected",
    "C51_disable",
    "C51_disable_interfaces_refuted",
    "C51_off",
    "C51_on",
    "C51_half_started_refuted"
   ],
   "note": "Invariant over the state machine; processes and run files as an oracle per launch and per kill. The run files are taken to appear and vanish together. Refuted parts are theorems."
  },
  {
   "property": "C52",
   "status": "proved",
   "theorems": [
    "C52_delivery",
    "C52_next_hop_reached",
    "C52_multihop_refuted",
    "C52_once_refuted",
    "C52_lan_0_refuted",
    "C52_nowhere",
    "C52_announce_moves_off",
    "C52_ends",
    "C52_ends_refuted"
   ],
   "note": "Invariant relating the tables of all switches and the link ends to a plan (WanNetSpec.v); counting argument for the copies. The refuted parts are theorems."
  },
  {
   "property": "C53",
   "status": "proved",
   "theorems": [
    "C53_observation_exact",
    "C53_observing_changes_nothing",
    "C53_nothing_left_behind",
    "C53_each_listener_once",
    "C53_self_removing_listener_refuted",
    "C53_late_listener_hears_no_writes_refuted",
    "C53_second_connection_made_refuted",
    "C53_shared_transport_refuted",
    "C53_lost_that_raises_refuted",
    "C53_no_transport_attribute_refuted"
   ],
   "note": "Simulation of the replaced-method machinery by a specification with no replaced methods; second simulation for non-interference. Excluded (marked Misuse in ObserveSpec.v, and refuted by witness where wrong): a listener that changes the audience of the protocol being reported, connecting an already connected session or transport."
  },
  {
   "property": "C54",
   "status": "proved",
   "theorems": [
    "C54_returns_when_true",
    "C54_notify_wakes_the_longest_waiting",
    "C54_lock_is_free",
    "C54_enough_notifications",
    "C54_too_few_notifications_hang",
    "C54_every_change_notified_refuted",
    "C54_notification_not_lost_refuted"
   ],
   "note": "asyncio's Lock and Condition (CPython 3.6 locks.py) are modelled explicitly, including the lock; predicates are taken to be functions of the application state."
  },
  {
   "property": "C55",
   "status": "proved",
   "theorems": [
    "C55_returns_own_protocol",
    "C55_returned_once",
    "C55_ends_once",
    "C55_server_own_request",
    "C55_one_control_connection",
    "C55_two_servers_refuted",
    "C55_unreachable_hangs",
    "C55_waits_for_network",
    "C55_two_vnics_refuted",
    "C55_two_vnics_raise_refuted",
    "C55_concurrent_hangs_refuted",
    "C55_lost_early_hangs_refuted"
   ],
   "note": "Built on ClientModel (C41) and CallbackModel; the choice of the VNIC and of its TCP location is not part of it, sleeps and timeouts may end at any time. The control connection is taken not to be lost."
  },
  {
   "property": "C56",
   "status": "proved",
   "theorems": [
    "C56_double_exact",
    "C56_single_nearest",
    "C56_single_decodes_exactly",
    "C56_single_round_trip_iff",
    "C56_single_specials",
    "C56_other_widths_fail",
    "C56_assignment",
    "C56_assign_integer",
    "C56_float32_refuses_singles_refuted",
    "C56_accepted_not_encodable_refuted",
    "C56_value_kept_refuted"
   ],
   "note": "A float is a bit pattern; numbers are integers in units of 2^-1074, so no axioms of the reals. struct's conversions are modelled as CPython's on IEEE hardware. float() of strings and bytes is a parameter."
  },
  {
   "property": "C57",
   "status": "proved",
   "theorems": [
    "C57_history",
    "C57_terminates",
    "C57_nesting_unbounded",
    "C57_default_there",
    "C57_exceptions_contained",
    "C57_user_connector_stays",
    "C57_loaded_once",
    "C57_no_directory_refuted",
    "C57_sys_path",
    "C57_module_asking_refuted",
    "C57_module_exit_refuted",
    "C57_connector_by_host",
    "C57_create_server"
   ],
   "note": "A module's body is its sequence of calls of the service. importlib's sys.modules and _RELOADING are modelled; finding files on sys.path is not. The history theorem is for modules that only set connectors and fail; the others are for all modules (without sys.exit() where said)."
  },
  {
   "property": "C58",
   "status": "proved",
   "theorems": [
    "C58_words_as_typed",
    "C58_line_runs_callback",
    "C58_line_runs_handler",
    "C58_line_runs_nothing",
    "C58_registered_once",
    "C58_configured_once",
    "C58_unambiguous",
    "C58_one_callback_a_line",
    "C58_help_lists_everything",
    "C58_complete_command",
    "C58_complete_subcommand",
    "C58_complete_argument",
    "C58_complete_depth",
    "C58_batch_in_order",
    "C58_batch_stops_refuted"
   ],
   "note": "Callbacks, handlers, futures and files are functions of the log of everything that happened. shlex.split is modelled. Not modelled: textwrap (a parameter), text of tracebacks, callbacks that reconfigure the shell."
  },
  {
   "property": "C59",
   "status": "proved",
   "theorems": [
    "C59_one_at_a_time",
    "C59_in_order",
    "C59_progress",
    "C59_hang_refuted",
    "C59_after_close",
    "C59_lost_once",
    "C59_after_close_refuted"
   ],
   "note": "The flags are read and written in the code's order under its locks; each locked region is one step. The loop is running (shouldQuit's is_running() is true); KeyboardInterrupt in input() is not modelled."
  },
  {
   "property": "C60",
   "status": "proved",
   "theorems": [
    "C60_emitted_iff",
    "C60_tag_roundtrip",
    "C60_tag_of",
    "C60_preset_stderr",
    "C60_preset_file",
    "C60_preset_others",
    "C60_preset_all_refuted",
    "C60_preset_history_refuted",
    "C60_failed_preset_refuted",
    "C60_cmd_line",
    "C60_exclude_refuted"
   ],
   "note": "Not modelled: formatting, creation and rotation of the log files (each preset call gets a new handler or raises), propagate = False, logging.disable; ConfigureArgParser (it always raises TypeError: EnablePresetLogging takes one argument)."
  },
  {
   "property": "C61",
   "status": "proved",
   "theorems": [
    "C61_roundtrip",
    "C61_load_save_load",
    "C61_distinct",
    "C61_network_file",
    "C61_pnetworking",
    "C61_lost_refuted",
    "C61_comment_refuted",
    "C61_cut_refuted"
   ],
   "note": "configparser of Python 3.11, read and written as text in IniModel (checked against the library on 600 generated files); str.lower on ASCII letters only, a lossless encoding, no interpolation."
  },
  {
   "property": "C62",
   "status": "proved",
   "theorems": [
    "C62_search",
    "C62_search_unique",
    "C62_inside",
    "C62_paths_distinct",
    "C62_alias_refuted",
    "C62_escape_refuted",
    "C62_writers",
    "C62_read_only",
    "C62_durable",
    "C62_spec_sections",
    "C62_value",
    "C62_set_get",
    "C62_unreadable_refuted",
    "C62_assign_refuted",
    "C62_overwrite_refuted",
    "C62_create",
    "C62_missing",
    "C62_reload_keeps",
    "C62_reload_drops_refuted",
    "C62_stale_refuted",
    "C62_lost_update_refuted",
    "C62_crash_refuted",
    "C62_crash_cut_refuted",
    "C62_reader_never_saves",
    "C62_writer_saves",
    "C62_reload_keeps_later",
    "C62_bad_file",
    "C62_error_keeps",
    "C62_set_missing",
    "C62_delete",
    "C62_assign"
   ],
   "note": "All of Configure.py but Initialize, with configparser's interpolation, section assignment and proxies (checked against Python 3.11 on 500 generated cases). Paths compared as written (no links), making a directory never fails, no directory has a configuration file's name, a file written now has the clock's time; a handle whose last reload raised is not followed further. `with` never saves (its __exit__ takes no arguments)."
  },
  {
   "property": "C63",
   "status": "proved",
   "theorems": [
    "C63_order",
    "C63_no_loss",
    "C63_sync",
    "C63_at_most_once",
    "C63_lost_once",
    "C63_count",
    "C63_addressed",
    "C63_both_told",
    "C63_nothing_after_lost",
    "C63_graceful",
    "C63_own_close",
    "C63_delay",
    "C63_set_delay",
    "C63_overtake_refuted",
    "C63_tie_refuted",
    "C63_own_close_refuted",
    "C63_pending_lost_refuted",
    "C63_raise_refuted",
    "C63_after_lost_refuted",
    "C63_test_loop_refuted",
    "C63_no_loop_refuted",
    "C63_write_result",
    "C63_store_result"
   ],
   "note": "Protocol objects are true, close's arguments dropped; programs that never end have no result. The loop may run any due job of least time; `fifo` (earlier call first) is assumed only where stated."
  },
  {
   "property": "C64",
   "status": "proved",
   "theorems": [
    "C64_one_chain",
    "C64_at_most_one",
    "C64_status",
    "C64_reported",
    "C64_torn",
    "C64_any_file",
    "C64_reconnect",
    "C64_stuck_refuted",
    "C64_name_refuted",
    "C64_cut_port_refuted",
    "C64_paced"
   ],
   "note": "The addresses announced on a link are C35's. Nothing cancels an attempt; a listener's exception ends the notification."
  },
  {
   "property": "C65",
   "status": "proved",
   "theorems": [
    "C65_alive",
    "C65_unended",
    "C65_message_refuted"
   ],
   "note": ""
  },
  {
   "property": "C66",
   "status": "proved",
   "theorems": [
    "C66_calls",
    "C66_add",
    "C66_direct",
    "C66_map",
    "C66_shortest",
    "C66_location",
    "C66_connections",
    "C66_moved",
    "C66_questions",
    "C66_arguments",
    "C66_remote",
    "C66_readable",
    "C66_table",
    "C66_table_readable",
    "C66_remove_refuted",
    "C66_add_refuted",
    "C66_direct_refuted",
    "C66_nowhere_refuted"
   ],
   "note": "The five settings verbs (log levels, loss rate) are arbitrary functions on their own state; texts of int()'s and the argument count's exceptions shortened; a connection is listed once it has its transport."
  },
  {
   "property": "C67",
   "status": "proved",
   "theorems": [
    "C67_settings_reported",
    "C67_setting_answers",
    "C67_open_to_all",
    "C67_reliable_refuses",
    "C67_dispatch",
    "C67_each_once",
    "C67_silent",
    "C67_all_or_none",
    "C67_recovers",
    "C67_refuted_delay_meaning",
    "C67_refuted_change_drops"
   ],
   "note": "The three log-level verbs are arbitrary functions; float() and str(float) are parameters; one packet per event (FramedProtocolAdapter hands them over one by one); the amount of delay is left out: a waiting write may go at any later moment."
  },
  {
   "property": "C68",
   "status": "proved",
   "theorems": [
    "C68_echoed_in_order_once",
    "C68_all_echoed",
    "C68_quit",
    "C68_server_answers_originals",
    "C68_server_writes_only_answers",
    "C68_no_ping_pong",
    "C68_refuted_quit_is_final",
    "C68_refuted_any_packet_is_handled",
    "C68_unset_original",
    "C68_refuted_client_close",
    "C68_refuted_nonascii",
    "C68_typed_line",
    "C68_raw_echo",
    "C68_report",
    "C68_raw_report_complete",
    "C68_refuted_short_report",
    "C68_refuted_long_report",
    "C68_long_report"
   ],
   "note": "Composes the packet model of C15-C17 with the protocols; the transport is a FIFO byte stream in both directions and goes on delivering after close(). EchoPacket has no registered subclass. Printing is an action, the text of the report for long equal data is given by its ingredients."
  },
  {
   "property": "C69",
   "status": "proved",
   "theorems": [
    "C69_level",
    "C69_announced",
    "C69_launched",
    "C69_switch_live",
    "C69_one_reply",
    "C69_verbs",
    "C69_refuted_device_verbs",
    "C69_log_level",
    "C69_reports_unique",
    "C69_log_effect",
    "C69_refuted_bad_level_is_harmless",
    "C69_refuted_start_level",
    "C69_refuted_two_links",
    "C69_refuted_old_link"
   ],
   "note": "Composes the models of C35 (links and level), C40 (management server) and C60 (logging). The order of links of the launched process is a hypothesis here (phase_after), justified by C64. Texts of two built-in exceptions are shortened."
  },
  {
   "property": "C70",
   "status": "proved",
   "theorems": [
    "C70_choice_unique",
    "C70_connect",
    "C70_destination",
    "C70_named",
    "C70_listen",
    "C70_creation",
    "C70_never_notices_refuted",
    "C70_disabled_hang_refuted",
    "C70_no_config_refuted",
    "C70_raw",
    "C70_localhost_refuted"
   ],
   "note": "Composes the models of C31-C34 (configuration), C62 (loading and status) and C55 (connectors). The configuration file is fixed while the program runs; the files a process leaves and what its process does are arbitrary at each moment (VEnv), one reading per call. Names are assumed plain (no reserved words): see plain_command."
  },
  {
   "property": "C71",
   "status": "proved",
   "theorems": [
    "C71_in_order",
    "C71_all_received",
    "C71_can_finish",
    "C71_closes",
    "C71_empty_refuted",
    "C71_throughput",
    "C71_watchdog_refuted",
    "C71_lost_refuted",
    "C71_sizes",
    "C71_one_packet",
    "C71_recorded_end",
    "C71_sizes_refused"
   ],
   "note": "sha1 is an arbitrary function. Not modelled: host and peer names in the record, a third connection, waitClose of the protocols (never called), the transmit delay (timers fire at any moment), the command line. The stack between the two is a reliable stream (C23 to C30). Sizes below 2^53."
  },
  {
   "property": "C72",
   "status": "proved",
   "theorems": [
    "C72_status",
    "C72_each_once",
    "C72_effect",
    "C72_bad_port_refuted",
    "C72_one_device_refuted",
    "C72_routes",
    "C72_routes_command_refuted",
    "C72_second_refuted",
    "C72_written"
   ],
   "note": "The pid files hold numbers; contents of the files are fixed while the command runs; the path of the configuration is a parameter; plain names (as in C51); commands that stop do stop (as in C70)."
  },
  {
   "property": "C73",
   "status": "proved",
   "theorems": [
    "C73_plain",
    "C73_positional",
    "C73_named",
    "C73_named_missing",
    "C73_special",
    "C73_special_once",
    "C73_second_handler_refuted",
    "C73_injection_refuted",
    "C73_positional_refuted",
    "C73_no_converter_refuted"
   ],
   "note": "The % of str and LogRecord.getMessage are modelled from Python's library, for %s, %(key)s and %%; conversions with flags or widths and other conversions mean nothing in the model. Arguments and what converters return are texts. What the formatter puts around the message (time, logger, level) is not modelled."
  },
  {
   "property": "C74",
   "status": "proved",
   "theorems": [
    "C74_result",
    "C74_whole",
    "C74_break_refuted",
    "C74_raise_refuted",
    "C74_fresh"
   ],
   "note": "The generator is used only through the wrapper and does not catch GeneratorExit; send() and throw() are not modelled."
  }
 ]
}