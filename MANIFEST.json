{
 "claims": [
  {
   "property": "C01",
   "status": "proved",
   "theorems": [
    "C01_add_checksum",
    "C01_validate_checksum"
   ],
   "note": ""
  },
  {
   "property": "C02",
   "status": "proved",
   "theorems": [
    "C02_single_byte_corruption_detected"
   ],
   "note": ""
  },
  {
   "property": "C03",
   "status": "proved",
   "theorems": [
    "C03_base16",
    "C03_encode_packet"
   ],
   "note": ""
  },
  {
   "property": "C04",
   "status": "proved",
   "theorems": [
    "C04_duration_to_rate",
    "C04_rounding_total",
    "C04_rate_to_duration",
    "C04_quantisation"
   ],
   "note": ""
  },
  {
   "property": "C05",
   "status": "proved",
   "theorems": [
    "C05_lighting_roundtrip",
    "C05_received_total"
   ],
   "note": ""
  },
  {
   "property": "C06",
   "status": "proved",
   "theorems": [
    "C06_lighting_total"
   ],
   "note": ""
  },
  {
   "property": "C07",
   "status": "proved",
   "theorems": [
    "C07_clock_roundtrip",
    "C07_clock_update_sal"
   ],
   "note": ""
  },
  {
   "property": "C08",
   "status": "proved",
   "theorems": [
    "C08_wrong_length_resynchronises",
    "C08_unknown_variable_skips_twice",
    "C08_unknown_variable_resynchronises_refuted"
   ],
   "note": ""
  },
  {
   "property": "C09",
   "status": "proved",
   "theorems": [
    "C09_temperature_roundtrip",
    "C09_quantisation",
    "C09_reject"
   ],
   "note": ""
  },
  {
   "property": "C10",
   "status": "proved",
   "theorems": [
    "C10_enable_roundtrip",
    "C10_enable_never_raises"
   ],
   "note": ""
  },
  {
   "property": "C11",
   "status": "proved",
   "theorems": [
    "C11_status_roundtrip",
    "C11_status_decode_exact"
   ],
   "note": ""
  },
  {
   "property": "C12",
   "status": "proved",
   "theorems": [
    "C12_binary_roundtrip",
    "C12_binary_decode_total"
   ],
   "note": ""
  },
  {
   "property": "C13",
   "status": "proved",
   "theorems": [
    "C13_level_roundtrip",
    "C13_level_decode_parity",
    "C13_manchester_decode_exact",
    "C13_flipped_bit_detected",
    "C13_encode_in_place",
    "C13_encode_out_of_range"
   ],
   "note": ""
  },
  {
   "property": "C14",
   "status": "proved",
   "theorems": [
    "C14_cal_roundtrip",
    "C14_received_total",
    "C14_received_same"
   ],
   "note": ""
  },
  {
   "property": "C15",
   "status": "proved",
   "theorems": [
    "C15_pm_from_pci",
    "C15_source_zero_refuted"
   ],
   "note": ""
  },
  {
   "property": "C16",
   "status": "proved",
   "theorems": [
    "C16_pm_to_pci"
   ],
   "note": ""
  },
  {
   "property": "C17",
   "status": "proved",
   "theorems": [
    "C17_dm_from_pci",
    "C17_dm_to_pci",
    "C17_malformed_from_pci",
    "C17_malformed_to_pci"
   ],
   "note": ""
  },
  {
   "property": "C18",
   "status": "proved",
   "theorems": [
    "C18_pp_from_pci",
    "C18_pp_to_pci",
    "C18_bridged_encode",
    "C18_bridged_decode",
    "C18_bridged_to_pci",
    "C18_no_route",
    "C18_no_route_to_pci"
   ],
   "note": ""
  },
  {
   "property": "C19",
   "status": "proved",
   "theorems": [
    "C19_position_from_pci",
    "C19_position_to_pci",
    "C19_bare_cal_refuted",
    "C19_consumed_from_pci",
    "C19_consumed_to_pci"
   ],
   "note": ""
  },
  {
   "property": "C20",
   "status": "proved",
   "theorems": [
    "C20_stable_from_pci",
    "C20_stable_to_pci"
   ],
   "note": ""
  },
  {
   "property": "C21",
   "status": "proved",
   "theorems": [
    "C21_raises_from_pci",
    "C21_raises_to_pci",
    "C21_exceptions",
    "C21_exception_free_refuted"
   ],
   "note": ""
  },
  {
   "property": "C22",
   "status": "proved",
   "theorems": [
    "C22_strict_from_pci",
    "C22_strict_to_pci",
    "C22_wrong_checksum_from_pci",
    "C22_wrong_checksum_to_pci"
   ],
   "note": ""
  },
  {
   "property": "C23",
   "status": "proved",
   "theorems": [
    "C23_corrupt_from_pci",
    "C23_corrupt_to_pci"
   ],
   "note": ""
  },
  {
   "property": "C24",
   "status": "proved",
   "theorems": [
    "C24_bounded",
    "C24_too_large",
    "C24_overflow",
    "C24_cbus"
   ],
   "note": ""
  },
  {
   "property": "C25",
   "status": "proved",
   "theorems": [
    "C25_loop",
    "C25_determined"
   ],
   "note": ""
  },
  {
   "property": "C26",
   "status": "proved",
   "theorems": [
    "C26_fragmentation",
    "C26_fits"
   ],
   "note": ""
  },
  {
   "property": "C27",
   "status": "proved",
   "theorems": [
    "C27_wedged",
    "C27_recovers_refuted"
   ],
   "note": ""
  },
  {
   "property": "C28",
   "status": "proved",
   "theorems": [
    "C28_cycle",
    "C28_distinct",
    "C28_return"
   ],
   "note": ""
  },
  {
   "property": "C29",
   "status": "proved",
   "theorems": [
    "C29_no_effect",
    "C29_raises_iff"
   ],
   "note": ""
  },
  {
   "property": "C30",
   "status": "proved",
   "theorems": [
    "C30_commands",
    "C30_identify",
    "C30_attribute"
   ],
   "note": ""
  },
  {
   "property": "C31",
   "status": "proved",
   "theorems": [
    "C31_dispatch",
    "C31_complete",
    "C31_raise"
   ],
   "note": ""
  },
  {
   "property": "C32",
   "status": "proved",
   "theorems": [
    "C32_connect",
    "C32_meaning"
   ],
   "note": ""
  },
  {
   "property": "C33",
   "status": "proved",
   "theorems": [
    "C33_modes",
    "C33_latest"
   ],
   "note": ""
  },
  {
   "property": "C34",
   "status": "proved",
   "theorems": [
    "C34_wire",
    "C34_positive"
   ],
   "note": ""
  },
  {
   "property": "C35",
   "status": "proved",
   "theorems": [
    "C35_message",
    "C35_stream"
   ],
   "note": ""
  },
  {
   "property": "C36",
   "status": "proved",
   "theorems": [
    "C36_deferred"
   ],
   "note": ""
  },
  {
   "property": "C37",
   "status": "proved",
   "theorems": [
    "C37_presence",
    "C37_lines"
   ],
   "note": ""
  },
  {
   "property": "C38",
   "status": "proved",
   "theorems": [
    "C38_wedge",
    "C38_arrival",
    "C38_request_is_answered_refuted"
   ],
   "note": ""
  },
  {
   "property": "C39",
   "status": "proved",
   "theorems": [
    "C39_answers",
    "C39_only",
    "C39_handler_respects_setting_refuted",
    "C39_no_clock"
   ],
   "note": ""
  },
  {
   "property": "C40",
   "status": "proved",
   "theorems": [
    "C40_form",
    "C40_distinct",
    "C40_inverse",
    "C40_every_topic"
   ],
   "note": ""
  },
  {
   "property": "C41",
   "status": "proved",
   "theorems": [
    "C41_command",
    "C41_disconnected",
    "C41_unambiguous",
    "C41_wish"
   ],
   "note": ""
  },
  {
   "property": "C42",
   "status": "proved",
   "theorems": [
    "C42_ignored",
    "C42_not_an_object",
    "C42_no_state",
    "C42_not_a_number",
    "C42_negative",
    "C42_only"
   ],
   "note": ""
  },
  {
   "property": "C43",
   "status": "proved",
   "theorems": [
    "C43_relay",
    "C43_only",
    "C43_agreement",
    "C43_states_agree_refuted"
   ],
   "note": ""
  },
  {
   "property": "C44",
   "status": "proved",
   "theorems": [
    "C44_outcome",
    "C44_order",
    "C44_import",
    "C44_aborts",
    "C44_again"
   ],
   "note": ""
  },
  {
   "property": "C45",
   "status": "proved",
   "theorems": [
    "C45_construction",
    "C45_history",
    "C45_append_outcome"
   ],
   "note": ""
  },
  {
   "property": "C46",
   "status": "proved",
   "theorems": [
    "C46_lighting_from_pci",
    "C46_lighting_to_pci",
    "C46_other_lighting_applications_refuted"
   ],
   "note": ""
  },
  {
   "property": "C47",
   "status": "proved",
   "theorems": [
    "C47_reply_length",
    "C47_extended_length",
    "C47_standard_length",
    "C47_standard_self_described_refuted"
   ],
   "note": ""
  },
  {
   "property": "C48",
   "status": "proved",
   "theorems": [
    "C48_handshake"
   ],
   "note": ""
  },
  {
   "property": "C49",
   "status": "proved",
   "theorems": [
    "C49_labels",
    "C49_unavailable",
    "C49_malformed"
   ],
   "note": ""
  },
  {
   "property": "C50",
   "status": "proved",
   "theorems": [
    "C50_flags",
    "C50_reserved_low_bit_lost",
    "C50_reserved_field_refuted"
   ],
   "note": ""
  },
  {
   "property": "C51",
   "status": "proved",
   "theorems": [
    "C51_connect",
    "C51_identities",
    "C51_command_topics"
   ],
   "note": ""
  },
  {
   "property": "C52",
   "status": "proved",
   "theorems": [
    "C52_silent",
    "C52_raises",
    "C52_lost",
    "C52_once",
    "C52_survives"
   ],
   "note": ""
  },
  {
   "property": "C53",
   "status": "proved",
   "theorems": [
    "C53_sent",
    "C53_recovered",
    "C53_client",
    "C53_treats"
   ],
   "note": ""
  },
  {
   "property": "C54",
   "status": "proved",
   "theorems": [
    "C54_recovered",
    "C54_pieces",
    "C54_identify_confirmed_refuted"
   ],
   "note": ""
  },
  {
   "property": "C55",
   "status": "proved",
   "theorems": [
    "C55_waits",
    "C55_swallows",
    "C55_hello",
    "C55_confirmations",
    "C55_reported_refuted"
   ],
   "note": ""
  },
  {
   "property": "C56",
   "status": "proved",
   "theorems": [
    "C56_advances",
    "C56_anchor",
    "C56_true_day",
    "C56_days_unique"
   ],
   "note": ""
  },
  {
   "property": "C57",
   "status": "proved",
   "theorems": [
    "C57_from_pci",
    "C57_to_pci",
    "C57_cancelled"
   ],
   "note": ""
  },
  {
   "property": "C58",
   "status": "proved",
   "theorems": [
    "C58_session",
    "C58_one_session"
   ],
   "note": ""
  },
  {
   "property": "C59",
   "status": "proved",
   "theorems": [
    "C59_sound",
    "C59_callbacks"
   ],
   "note": ""
  },
  {
   "property": "C60",
   "status": "proved",
   "theorems": [
    "C60_brief",
    "C60_attained"
   ],
   "note": ""
  },
  {
   "property": "C61",
   "status": "proved",
   "theorems": [
    "C61_reports",
    "C61_one_chronicle",
    "C61_retained",
    "C61_agree"
   ],
   "note": ""
  },
  {
   "property": "C62",
   "status": "proved",
   "theorems": [
    "C62_published",
    "C62_no_loop",
    "C62_own_state",
    "C62_subscribed"
   ],
   "note": ""
  },
  {
   "property": "C63",
   "status": "proved",
   "theorems": [
    "C63_orders"
   ],
   "note": ""
  },
  {
   "property": "C64",
   "status": "proved",
   "theorems": [
    "C64_instance",
    "C64_unreadable",
    "C64_valid",
    "C64_unknown"
   ],
   "note": ""
  },
  {
   "property": "C65",
   "status": "proved",
   "theorems": [
    "C65_networks",
    "C65_file",
    "C65_announced"
   ],
   "note": ""
  },
  {
   "property": "C66",
   "status": "proved",
   "theorems": [
    "C66_loads",
    "C66_fails",
    "C66_daemon_xml",
    "C66_xml_refuted"
   ],
   "note": ""
  },
  {
   "property": "C67",
   "status": "proved",
   "theorems": [
    "C67_dump",
    "C67_bad",
    "C67_hex"
   ],
   "note": ""
  },
  {
   "property": "C68",
   "status": "proved",
   "theorems": [
    "C68_graph",
    "C68_unused",
    "C68_document",
    "C68_incomplete"
   ],
   "note": ""
  },
  {
   "property": "C69",
   "status": "proved",
   "theorems": [
    "C69_cut",
    "C69_fragmentation",
    "C69_fits",
    "C69_bare_cal",
    "C69_bare_cal_refuted"
   ],
   "note": ""
  },
  {
   "property": "C70",
   "status": "proved",
   "theorems": [
    "C70_usage",
    "C70_plan",
    "C70_broker",
    "C70_tls",
    "C70_plaintext",
    "C70_tcp_refuted"
   ],
   "note": ""
  },
  {
   "property": "C71",
   "status": "proved",
   "theorems": [
    "C71_read",
    "C71_write",
    "C71_misc",
    "C71_raise",
    "C71_calls",
    "C71_one",
    "C71_one_refuted"
   ],
   "note": ""
  },
  {
   "property": "C72",
   "status": "proved",
   "theorems": [
    "C72_calls",
    "C72_determined",
    "C72_decoded",
    "C72_heard",
    "C72_unheard"
   ],
   "note": ""
  },
  {
   "property": "C73",
   "status": "proved",
   "theorems": [
    "C73_ends",
    "C73_up",
    "C73_down",
    "C73_determined",
    "C73_never_drops_refuted",
    "C73_one_script"
   ],
   "note": ""
  },
  {
   "property": "C74",
   "status": "proved",
   "theorems": [
    "C74_client",
    "C74_rate",
    "C74_off",
    "C74_round",
    "C74_fresh",
    "C74_one_per_period_refuted"
   ],
   "note": ""
  },
  {
   "property": "C75",
   "status": "proved",
   "theorems": [
    "C75_ends",
    "C75_up",
    "C75_down",
    "C75_news",
    "C75_settled"
   ],
   "note": ""
  },
  {
   "property": "C76",
   "status": "proved",
   "theorems": [
    "C76_requests",
    "C76_disk",
    "C76_whole",
    "C76_address",
    "C76_done",
    "C76_again",
    "C76_place",
    "C76_resume",
    "C76_outside_refuted",
    "C76_repair_refuted",
    "C76_name"
   ],
   "note": ""
  },
  {
   "property": "C77",
   "status": "proved",
   "theorems": [
    "C77_options",
    "C77_starts",
    "C77_help",
    "C77_tls",
    "C77_required",
    "C77_secure",
    "C77_ambiguous"
   ],
   "note": ""
  },
  {
   "property": "C78",
   "status": "proved",
   "theorems": [
    "C78_options",
    "C78_tls",
    "C78_injects",
    "C78_inject_refuted"
   ],
   "note": ""
  },
  {
   "property": "C79",
   "status": "proved",
   "theorems": [
    "C79_reads",
    "C79_unambiguous",
    "C79_repeated",
    "C79_command",
    "C79_ignored",
    "C79_only"
   ],
   "note": ""
  },
  {
   "property": "C80",
   "status": "proved",
   "theorems": [
    "C80_published"
   ],
   "note": ""
  },
  {
   "property": "C81",
   "status": "proved",
   "theorems": [
    "C81_on",
    "C81_off",
    "C81_ramp",
    "C81_negative",
    "C81_address",
    "C81_misread",
    "C81_ramp_refuted",
    "C81_listen",
    "C81_config",
    "C81_usage"
   ],
   "note": ""
  },
  {
   "property": "C82",
   "status": "proved",
   "theorems": [
    "C82_text",
    "C82_graph"
   ],
   "note": ""
  },
  {
   "property": "C83",
   "status": "proved",
   "theorems": [
    "C83_failed",
    "C83_bad",
    "C83_absent",
    "C83_deep",
    "C83_killed"
   ],
   "note": ""
  },
  {
   "property": "C84",
   "status": "proved",
   "theorems": [
    "C84_never",
    "C84_packet"
   ],
   "note": ""
  },
  {
   "property": "C85",
   "status": "proved",
   "theorems": [
    "C85_named_dump",
    "C85_named_graph",
    "C85_named_fetch",
    "C85_dump",
    "C85_dump_runs",
    "C85_graph",
    "C85_fetch",
    "C85_pci",
    "C85_server",
    "C85_help"
   ],
   "note": ""
  },
  {
   "property": "C86",
   "status": "proved",
   "theorems": [
    "C86_to_clients",
    "C86_all_to_clients",
    "C86_any",
    "C86_to_serial",
    "C86_half_open_refuted",
    "C86_only_while_connected_refuted"
   ],
   "note": ""
  },
  {
   "property": "C87",
   "status": "proved",
   "theorems": [
    "C87_one_at_a_time",
    "C87_ends"
   ],
   "note": ""
  },
  {
   "property": "C88",
   "status": "proved",
   "theorems": [
    "C88_pieces",
    "C88_one_byte",
    "C88_two_bytes",
    "C88_depends_on_pieces_refuted",
    "C88_to_serial",
    "C88_to_serial_one_byte"
   ],
   "note": ""
  },
  {
   "property": "C89",
   "status": "proved",
   "theorems": [
    "C89_transparent",
    "C89_commands"
   ],
   "note": ""
  },
  {
   "property": "C90",
   "status": "proved",
   "theorems": [
    "C90_answers",
    "C90_documented_port_refuted",
    "C90_documented_destination_refuted",
    "C90_no_storm",
    "C90_delivery"
   ],
   "note": ""
  },
  {
   "property": "C91",
   "status": "proved",
   "theorems": [
    "C91_bounded",
    "C91_exclusive",
    "C91_in_turn",
    "C91_client",
    "C91_no_livelock",
    "C91_no_deadlock",
    "C91_call_back_blocks",
    "C91_whole_calls_refuted"
   ],
   "note": ""
  },
  {
   "property": "C92",
   "status": "proved",
   "theorems": [
    "C92_whole_lines",
    "C92_connected",
    "C92_recovers",
    "C92_alone",
    "C92_no_waiting",
    "C92_distinct_codes_refuted",
    "C92_always_sent_refuted"
   ],
   "note": ""
  },
  {
   "property": "C93",
   "status": "proved",
   "theorems": [
    "C93_life",
    "C93_retained",
    "C93_agree",
    "C93_silent",
    "C93_current_refuted",
    "C93_agree_refuted"
   ],
   "note": ""
  },
  {
   "property": "C94",
   "status": "proved",
   "theorems": [
    "C94_recovers",
    "C94_quiet",
    "C94_one_byte_refuted",
    "C94_pieces_refuted"
   ],
   "note": ""
  },
  {
   "property": "C95",
   "status": "proved",
   "theorems": [
    "C95_after_daemon",
    "C95_large_daemon",
    "C95_pieces",
    "C95_exception",
    "C95_hangup",
    "C95_flush",
    "C95_once",
    "C95_wire",
    "C95_wire_daemon",
    "C95_history",
    "C95_history_daemon",
    "C95_future",
    "C95_after",
    "C95_large",
    "C95_undisturbed",
    "C95_undisturbed_daemon",
    "C95_future_daemon",
    "C95_burst_refuted",
    "C95_sent_refuted"
   ],
   "note": ""
  },
  {
   "property": "C96",
   "status": "proved",
   "theorems": [
    "C96_ends",
    "C96_up",
    "C96_down",
    "C96_exceptions",
    "C96_lasts",
    "C96_settled",
    "C96_reported_refuted"
   ],
   "note": ""
  },
  {
   "property": "C97",
   "status": "proved",
   "theorems": [
    "C97_runs",
    "C97_fails",
    "C97_only",
    "C97_help",
    "C97_refused",
    "C97_unchanged",
    "C97_same_number_refuted"
   ],
   "note": ""
  },
  {
   "property": "C98",
   "status": "proved",
   "theorems": [
    "C98_deaf",
    "C98_stuck",
    "C98_behind_redirector",
    "C98_commands",
    "C98_orders_pass",
    "C98_reported_refuted"
   ],
   "note": ""
  },
  {
   "property": "C99",
   "status": "proved",
   "theorems": [
    "C99_commands",
    "C99_management",
    "C99_packets",
    "C99_read_commands",
    "C99_read_management",
    "C99_read_device",
    "C99_read_orders",
    "C99_read_requests"
   ],
   "note": ""
  },
  {
   "property": "C100",
   "status": "proved",
   "theorems": [
    "C100_from_pci",
    "C100_to_pci",
    "C100_one_meaning",
    "C100_otherwise"
   ],
   "note": ""
  },
  {
   "property": "C101",
   "status": "proved",
   "theorems": [
    "C101_told",
    "C101_heard",
    "C101_one_way"
   ],
   "note": ""
  },
  {
   "property": "C102",
   "status": "proved",
   "theorems": [
    "C102_from_pci",
    "C102_to_pci"
   ],
   "note": ""
  },
  {
   "property": "C103",
   "status": "proved",
   "theorems": [
    "C103_session",
    "C103_one_session"
   ],
   "note": ""
  },
  {
   "property": "C104",
   "status": "proved",
   "theorems": [
    "C104_acts",
    "C104_any",
    "C104_one_reading"
   ],
   "note": ""
  },
  {
   "property": "C105",
   "status": "proved",
   "theorems": [
    "C105_float",
    "C105_whole",
    "C105_cut",
    "C105_large",
    "C105_command",
    "C105_floor_refuted"
   ],
   "note": ""
  },
  {
   "property": "C106",
   "status": "proved",
   "theorems": [
    "C106_transparent",
    "C106_up",
    "C106_settled"
   ],
   "note": ""
  }
 ]
}