{
 "claims": [
  {
   "property": "C01",
   "status": "proved",
   "theorems": [
    "C01_incremental_roundtrip"
   ],
   "note": ""
  },
  {
   "property": "C02",
   "status": "proved",
   "theorems": [
    "C02_key_domain"
   ],
   "note": ""
  },
  {
   "property": "C03",
   "status": "proved",
   "theorems": [
    "C03_reconstruct_exact",
    "C03_tally_step_exact",
    "C03_tally_exact"
   ],
   "note": "Reconstruction for all 32-bit words; tally generation for all 32-bit queries with shares in the generator's range."
  },
  {
   "property": "C04",
   "status": "proved",
   "theorems": [
    "C04_mod_inverse"
   ],
   "note": ""
  },
  {
   "property": "C05",
   "status": "proved",
   "theorems": [
    "C05_tally_hides_query"
   ],
   "note": ""
  },
  {
   "property": "C06",
   "status": "proved",
   "theorems": [
    "C06_tamper_injective",
    "C06_reconstruct_bijective",
    "C06_tamper_unpredictable"
   ],
   "note": ""
  },
  {
   "property": "C07",
   "status": "proved",
   "theorems": [
    "C07_masks_cancel"
   ],
   "note": ""
  },
  {
   "property": "C08",
   "status": "proved",
   "theorems": [
    "C08_masked_response_hides",
    "C08_all_but_one_arbitrary"
   ],
   "note": ""
  },
  {
   "property": "C09",
   "status": "proved",
   "theorems": [
    "C09_mask_every_byte"
   ],
   "note": ""
  },
  {
   "property": "C10",
   "status": "proved",
   "theorems": [
    "C10_onion_peels"
   ],
   "note": "Sealed boxes are abstract; correctness law box_ok is a premise for each key pair."
  },
  {
   "property": "C11",
   "status": "proved",
   "theorems": [
    "C11_sizes_agree",
    "C11_encrypt_size"
   ],
   "note": ""
  },
  {
   "property": "C12",
   "status": "proved",
   "theorems": [
    "C12_ndebug_not_encrypted",
    "C12_ndebug_first_secret_lost"
   ],
   "note": "The sealing half with assertions enabled is C10_onion_peels."
  },
  {
   "property": "C13",
   "status": "proved",
   "theorems": [
    "C13_local_shuffle_bijective"
   ],
   "note": ""
  },
  {
   "property": "C14",
   "status": "proved",
   "theorems": [
    "C14_last_moves_down",
    "C14_identity_unreachable",
    "C14_two_always_swapped",
    "C14_number_of_orders",
    "C14_few_orders"
   ],
   "note": ""
  },
  {
   "property": "C15",
   "status": "proved",
   "theorems": [
    "C15_initialize_succeeds",
    "C15_balanced"
   ],
   "note": ""
  },
  {
   "property": "C16",
   "status": "proved",
   "theorems": [
    "C16_siblings_agree"
   ],
   "note": ""
  },
  {
   "property": "C17",
   "status": "proved",
   "theorems": [
    "C17_exchange_identity"
   ],
   "note": ""
  },
  {
   "property": "C18",
   "status": "proved",
   "theorems": [
    "C18_source_of_position"
   ],
   "note": ""
  },
  {
   "property": "C19",
   "status": "proved",
   "theorems": [
    "C19_noise_first"
   ],
   "note": ""
  },
  {
   "property": "C20",
   "status": "proved",
   "theorems": [
    "C20_ranges_tile",
    "C20_large_database",
    "C20_range_inverted"
   ],
   "note": ""
  },
  {
   "property": "C21",
   "status": "proved",
   "theorems": [
    "C21_exact_ceiling",
    "C21_find_range"
   ],
   "note": ""
  },
  {
   "property": "C22",
   "status": "proved",
   "theorems": [
    "C22_sample_bounds",
    "C22_no_noise"
   ],
   "note": ""
  },
  {
   "property": "C23",
   "status": "proved",
   "theorems": [
    "C23_laplace_law",
    "C23_cutoff",
    "C23_upper_quantile",
    "C23_sample_law"
   ],
   "note": ""
  },
  {
   "property": "C24",
   "status": "proved",
   "theorems": [
    "C24_private",
    "C24_not_plain_delta"
   ],
   "note": ""
  },
  {
   "property": "C25",
   "status": "proved",
   "theorems": [
    "C25_constant_noise",
    "C25_backend_learns_histogram",
    "C25_counts_determine_queries"
   ],
   "note": ""
  },
  {
   "property": "C26",
   "status": "proved",
   "theorems": [
    "C26_never_rejects"
   ],
   "note": ""
  },
  {
   "property": "C27",
   "status": "proved",
   "theorems": [
    "C27_round_trip"
   ],
   "note": ""
  },
  {
   "property": "C28",
   "status": "proved",
   "theorems": [
    "C28_trailing",
    "C28_truncated",
    "C28_out_of_bounds",
    "C28_missing_file",
    "C28_injective"
   ],
   "note": ""
  },
  {
   "property": "C29",
   "status": "proved",
   "theorems": [
    "C29_from_args",
    "C29_interactive"
   ],
   "note": ""
  },
  {
   "property": "C30",
   "status": "proved",
   "theorems": [
    "C30_from_args",
    "C30_requested_shape",
    "C30_from_args_total",
    "C30_interactive_large"
   ],
   "note": ""
  },
  {
   "property": "C31",
   "status": "proved",
   "theorems": [
    "C31_response_roundtrip",
    "C31_query_roundtrip",
    "C31_secret_roundtrip"
   ],
   "note": ""
  },
  {
   "property": "C32",
   "status": "proved",
   "theorems": [
    "C32_send_messages",
    "C32_send_ciphers",
    "C32_control_messages"
   ],
   "note": ""
  },
  {
   "property": "C33",
   "status": "proved",
   "theorems": [
    "C33_read_messages",
    "C33_read_ciphers"
   ],
   "note": ""
  },
  {
   "property": "C34",
   "status": "proved",
   "theorems": [
    "C34_message_boundary",
    "C34_phases",
    "C34_ready_byte"
   ],
   "note": ""
  },
  {
   "property": "C35",
   "status": "proved",
   "theorems": [
    "C35_batch_read_loops",
    "C35_exact_read_loops"
   ],
   "note": ""
  },
  {
   "property": "C36",
   "status": "proved",
   "theorems": [
    "C36_in_place_processing"
   ],
   "note": ""
  },
  {
   "property": "C37",
   "status": "proved",
   "theorems": [
    "C37_client_fifo",
    "C37_noise_fifo",
    "C37_simulated"
   ],
   "note": ""
  },
  {
   "property": "C38",
   "status": "proved",
   "theorems": [
    "C38_party_store",
    "C38_backend_store",
    "C38_duplicate_aborts",
    "C38_duplicate_ndebug"
   ],
   "note": ""
  },
  {
   "property": "C39",
   "status": "proved",
   "theorems": [
    "C39_tags_distinct"
   ],
   "note": ""
  },
  {
   "property": "C40",
   "status": "proved",
   "theorems": [
    "C40_noise_tags",
    "C40_variable_noise_collides"
   ],
   "note": ""
  },
  {
   "property": "C41",
   "status": "proved",
   "theorems": [
    "C41_equal_counts",
    "C41_collision_iff",
    "C41_secret_tags",
    "C41_collision_aborts"
   ],
   "note": ""
  },
  {
   "property": "C42",
   "status": "proved",
   "theorems": [
    "C42_end_to_end"
   ],
   "note": ""
  },
  {
   "property": "C43",
   "status": "proved",
   "theorems": [
    "C43_simulated_end_to_end"
   ],
   "note": ""
  },
  {
   "property": "C44",
   "status": "proved",
   "theorems": [
    "C44_backend_view",
    "C44_backend_view_simulated",
    "C44_backend_counts"
   ],
   "note": ""
  },
  {
   "property": "C45",
   "status": "proved",
   "theorems": [
    "C45_counts"
   ],
   "note": ""
  },
  {
   "property": "C46",
   "status": "proved",
   "theorems": [
    "C46_answers",
    "C46_positions",
    "C46_orders_exist"
   ],
   "note": ""
  },
  {
   "property": "C47",
   "status": "proved",
   "theorems": [
    "C47_run",
    "C47_run_simulated"
   ],
   "note": ""
  },
  {
   "property": "C48",
   "status": "proved",
   "theorems": [
    "C48_party_broadcast",
    "C48_backend_broadcast",
    "C48_collision_aborts"
   ],
   "note": ""
  },
  {
   "property": "C49",
   "status": "proved",
   "theorems": [
    "C49_exactly_once",
    "C49_nothing_left",
    "C49_schedule_independent"
   ],
   "note": ""
  },
  {
   "property": "C50",
   "status": "proved",
   "theorems": [
    "C50_no_deadlock",
    "C50_terminates",
    "C50_completes",
    "C50_constants",
    "C50_tight"
   ],
   "note": ""
  },
  {
   "property": "C51",
   "status": "proved",
   "theorems": [
    "C51_poll",
    "C51_poll_error"
   ],
   "note": ""
  },
  {
   "property": "C52",
   "status": "proved",
   "theorems": [
    "C52_cells",
    "C52_fill",
    "C52_gapless",
    "C52_gapless_255"
   ],
   "note": ""
  },
  {
   "property": "C53",
   "status": "proved",
   "theorems": [
    "C53_no_deadlock",
    "C53_completes",
    "C53_aligned",
    "C53_nothing_left"
   ],
   "note": ""
  },
  {
   "property": "C54",
   "status": "proved",
   "theorems": [
    "C54_first_cipher",
    "C54_first_query"
   ],
   "note": ""
  },
  {
   "property": "C55",
   "status": "proved",
   "theorems": [
    "C55_command_line",
    "C55_before_config"
   ],
   "note": ""
  },
  {
   "property": "C56",
   "status": "proved",
   "theorems": [
    "C56_database"
   ],
   "note": ""
  },
  {
   "property": "C57",
   "status": "proved",
   "theorems": [
    "C57_count_wraps",
    "C57_overflow"
   ],
   "note": ""
  },
  {
   "property": "C58",
   "status": "proved",
   "theorems": [
    "C58_registered",
    "C58_bad_identity",
    "C58_completes",
    "C58_terminates",
    "C58_ignore"
   ],
   "note": ""
  },
  {
   "property": "C59",
   "status": "proved",
   "theorems": [
    "C59_response_equal",
    "C59_response_not_equal"
   ],
   "note": ""
  },
  {
   "property": "C60",
   "status": "proved",
   "theorems": [
    "C60_party_ciphers",
    "C60_backend_ciphers",
    "C60_open_one"
   ],
   "note": ""
  },
  {
   "property": "C61",
   "status": "proved",
   "theorems": [
    "C61_party_queries",
    "C61_backend_queries"
   ],
   "note": ""
  },
  {
   "property": "C62",
   "status": "proved",
   "theorems": [
    "C62_party_responses"
   ],
   "note": ""
  },
  {
   "property": "C63",
   "status": "proved",
   "theorems": [
    "C63_every_schedule",
    "C63_every_schedule_simulated",
    "C63_every_schedule_offline"
   ],
   "note": ""
  },
  {
   "property": "C64",
   "status": "proved",
   "theorems": [
    "C64_crash_safety",
    "C64_crash_safety_simulated",
    "C64_crash_safety_offline",
    "C64_client_waits"
   ],
   "note": ""
  },
  {
   "property": "C65",
   "status": "proved",
   "theorems": [
    "C65_every_schedule",
    "C65_every_schedule_simulated",
    "C65_every_schedule_offline"
   ],
   "note": ""
  },
  {
   "property": "C66",
   "status": "proved",
   "theorems": [
    "C66_one_server",
    "C66_several_servers",
    "C66_connections",
    "C66_generated"
   ],
   "note": ""
  },
  {
   "property": "C67",
   "status": "proved",
   "theorems": [
    "C67_order_read_off",
    "C67_orders_read_off",
    "C67_one_server",
    "C67_several_servers"
   ],
   "note": ""
  },
  {
   "property": "C68",
   "status": "proved",
   "theorems": [
    "C68_one_server",
    "C68_several_servers"
   ],
   "note": ""
  },
  {
   "property": "C69",
   "status": "proved",
   "theorems": [
    "C69_every_schedule",
    "C69_every_schedule_several",
    "C69_crash_safety",
    "C69_one_server",
    "C69_several_servers",
    "C69_not_connected"
   ],
   "note": ""
  },
  {
   "property": "C70",
   "status": "proved",
   "theorems": [
    "C70_numeric",
    "C70_one_text",
    "C70_not_refused"
   ],
   "note": ""
  },
  {
   "property": "C71",
   "status": "proved",
   "theorems": [
    "C71_upstream_servers_learn_nothing",
    "C71_upstream_parties_learn_nothing"
   ],
   "note": ""
  },
  {
   "property": "C72",
   "status": "proved",
   "theorems": [
    "C72_tags_identify_queries",
    "C72_tags_identify_queries_of_all_clients"
   ],
   "note": ""
  },
  {
   "property": "C73",
   "status": "proved",
   "theorems": [
    "C73_crash_safety",
    "C73_crash_safety_simulated",
    "C73_crash_safety_offline",
    "C73_clients_wait"
   ],
   "note": ""
  },
  {
   "property": "C74",
   "status": "proved",
   "theorems": [
    "C74_tampering_several",
    "C74_tampering_several_simulated",
    "C74_tampering",
    "C74_tampering_simulated",
    "C74_client_checks",
    "C74_client_checks_servers"
   ],
   "note": ""
  },
  {
   "property": "C75",
   "status": "proved",
   "theorems": [
    "C75_client",
    "C75_network",
    "C75_network_servers"
   ],
   "note": ""
  },
  {
   "property": "C76",
   "status": "proved",
   "theorems": [
    "C76_traffic_several",
    "C76_traffic_several_simulated",
    "C76_same_several",
    "C76_history_several",
    "C76_history_several_killed",
    "C76_traffic",
    "C76_traffic_simulated",
    "C76_same",
    "C76_history",
    "C76_history_killed"
   ],
   "note": ""
  },
  {
   "property": "C77",
   "status": "proved",
   "theorems": [
    "C77_group",
    "C77_one_query",
    "C77_servers"
   ],
   "note": ""
  },
  {
   "property": "C78",
   "status": "proved",
   "theorems": [
    "C78_roles",
    "C78_jobs",
    "C78_order",
    "C78_new",
    "C78_config_when",
    "C78_same_config",
    "C78_config"
   ],
   "note": ""
  },
  {
   "property": "C79",
   "status": "proved",
   "theorems": [
    "C79_done",
    "C79_account",
    "C79_dropped",
    "C79_lost",
    "C79_stored",
    "C79_results"
   ],
   "note": ""
  },
  {
   "property": "C80",
   "status": "proved",
   "theorems": [
    "C80_finishes",
    "C80_agree",
    "C80_once",
    "C80_config",
    "C80_config_good",
    "C80_truthful",
    "C80_fair_exists"
   ],
   "note": ""
  },
  {
   "property": "C81",
   "status": "proved",
   "theorems": [
    "C81_told",
    "C81_kill",
    "C81_clear",
    "C81_kill_other",
    "C81_lost_reply"
   ],
   "note": ""
  },
  {
   "property": "C82",
   "status": "proved",
   "theorems": [
    "C82_command",
    "C82_roles",
    "C82_file",
    "C82_one_server",
    "C82_several_servers"
   ],
   "note": ""
  },
  {
   "property": "C83",
   "status": "proved",
   "theorems": [
    "C83_connected",
    "C83_orderly",
    "C83_no_deadlock",
    "C83_siblings"
   ],
   "note": ""
  },
  {
   "property": "C84",
   "status": "proved",
   "theorems": [
    "C84_party",
    "C84_amounts",
    "C84_backend",
    "C84_party_simulated",
    "C84_backend_simulated"
   ],
   "note": ""
  },
  {
   "property": "C85",
   "status": "proved",
   "theorems": [
    "C85_text",
    "C85_store_load",
    "C85_store_again",
    "C85_by_hand",
    "C85_stopped",
    "C85_asked"
   ],
   "note": "How modes and doubles are written is left open (record coding); the theorems ask that they are read back as written, which JavaScript guarantees for finite numbers other than -0."
  },
  {
   "property": "C86",
   "status": "proved",
   "theorems": [
    "C86_on_the_wire_several",
    "C86_nothing_hidden",
    "C86_on_the_wire",
    "C86_nothing_hidden_several"
   ],
   "note": ""
  },
  {
   "property": "C87",
   "status": "proved",
   "theorems": [
    "C87_stages_several",
    "C87_stages_several_simulated",
    "C87_stages",
    "C87_stages_simulated"
   ],
   "note": ""
  }
 ]
}