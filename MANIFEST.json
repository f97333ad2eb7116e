{
 "claims": [
  {
   "property": "C01",
   "status": "proved",
   "theorems": [
    "C01_encode",
    "C01_decode_u64",
    "C01_decode_limited",
    "C01_limit_enforced",
    "C01_prefix_free"
   ],
   "note": ""
  },
  {
   "property": "C02",
   "status": "proved",
   "theorems": [
    "C02_splitting",
    "C02_asks_when_dry",
    "C02_exact_consumption",
    "C02_one_push",
    "C02_one_push_built",
    "C02_one_push_refuted",
    "C02_ready_stays",
    "C02_ready_stays_types",
    "C02_ready_stays_refuted",
    "C02_integers_ready"
   ],
   "note": "The literal claim fails on corner cases, shown with witnesses by C02_one_push_refuted, C02_ready_stays_refuted; the other theorems prove it with the exact side conditions."
  },
  {
   "property": "C03",
   "status": "proved",
   "theorems": [
    "C03_slice_unbounded",
    "C03_slice",
    "C03_read",
    "C03_read_unbuffered",
    "C03_hex",
    "C03_hex_bad_char",
    "C03_limit_sound",
    "C03_limit_live",
    "C03_limit_ready",
    "C03_limit_ready_types",
    "C03_limit_witness",
    "C03_limit_ready_refuted"
   ],
   "note": "The literal claim fails on corner cases, shown with witnesses by C03_limit_ready_refuted; the other theorems prove it with the exact side conditions."
  },
  {
   "property": "C04",
   "status": "proved",
   "theorems": [
    "C04_vec",
    "C04_writer",
    "C04_iter",
    "C04_iter_steps",
    "C04_exact_len",
    "C04_check",
    "C04_slice",
    "C04_transaction",
    "C04_block",
    "C04_parts",
    "C04_iter_len_refuted",
    "C04_nth_twice_refuted",
    "C04_empty_first_chunk_refuted"
   ],
   "note": "The literal claim fails on corner cases, shown with witnesses by C04_iter_len_refuted, C04_nth_twice_refuted, C04_empty_first_chunk_refuted; the other theorems prove it with the exact side conditions."
  },
  {
   "property": "C05",
   "status": "proved",
   "theorems": [
    "C05_bytes",
    "C05_items",
    "C05_bytes_alloc",
    "C05_items_alloc",
    "C05_alloc_same_decoder"
   ],
   "note": ""
  },
  {
   "property": "C06",
   "status": "proved",
   "theorems": [
    "C06_wire_format",
    "C06_round_trip",
    "C06_canonical",
    "C06_slice",
    "C06_injective",
    "C06_no_panic"
   ],
   "note": ""
  },
  {
   "property": "C07",
   "status": "proved",
   "theorems": [
    "C07_accepted",
    "C07_rejected",
    "C07_empty_witnesses",
    "C07_flag"
   ],
   "note": ""
  },
  {
   "property": "C08",
   "status": "proved",
   "theorems": [
    "C08_txid",
    "C08_wtxid",
    "C08_txid_ignores_witness",
    "C08_ntxid_ignores_scripts",
    "C08_txid_binds",
    "C08_wtxid_binds",
    "C08_no_witness",
    "C08_no_inputs_refuted",
    "C08_big_element_refuted"
   ],
   "note": "The literal claim fails on corner cases, shown with witnesses by C08_no_inputs_refuted, C08_big_element_refuted; the other theorems prove it with the exact side conditions."
  },
  {
   "property": "C09",
   "status": "proved",
   "theorems": [
    "C09_outpoint",
    "C09_txin",
    "C09_txout",
    "C09_header",
    "C09_block",
    "C09_no_panic"
   ],
   "note": ""
  },
  {
   "property": "C10",
   "status": "proved",
   "theorems": [
    "C10_batched",
    "C10_streaming",
    "C10_agree",
    "C10_recursive",
    "C10_no_alloc",
    "C10_streaming_exact_refuted"
   ],
   "note": "The literal claim fails on corner cases, shown with witnesses by C10_streaming_exact_refuted; the other theorems prove it with the exact side conditions."
  },
  {
   "property": "C11",
   "status": "proved",
   "theorems": [
    "C11_same_length",
    "C11_binding",
    "C11_collision",
    "C11_ambiguous_refuted"
   ],
   "note": "The literal claim fails on corner cases, shown with witnesses by C11_ambiguous_refuted; the other theorems prove it with the exact side conditions."
  },
  {
   "property": "C12",
   "status": "proved",
   "theorems": [
    "C12_history",
    "C12_history_total",
    "C12_observe",
    "C12_eq_list",
    "C12_eq",
    "C12_encode",
    "C12_decode",
    "C12_decode_no_panic",
    "C12_memory",
    "C12_big_element_refuted",
    "C12_huge_index_refuted",
    "C12_decode_panic_refuted"
   ],
   "note": "The literal claim fails on corner cases, shown with witnesses by C12_big_element_refuted, C12_huge_index_refuted, C12_decode_panic_refuted; the other theorems prove it with the exact side conditions."
  },
  {
   "property": "C13",
   "status": "proved",
   "theorems": [
    "C13_rebuild",
    "C13_minimise",
    "C13_unambiguous",
    "C13_push_slice",
    "C13_push_slice_non_minimal",
    "C13_append",
    "C13_builder",
    "C13_reassemble",
    "C13_extend",
    "C13_extend_hint_refuted",
    "C13_push_opcode_refuted"
   ],
   "note": "The literal claim fails on corner cases, shown with witnesses by C13_extend_hint_refuted, C13_push_opcode_refuted; the other theorems prove it with the exact side conditions."
  },
  {
   "property": "C14",
   "status": "proved",
   "theorems": [
    "C14_reads",
    "C14_shape",
    "C14_step",
    "C14_classify_total"
   ],
   "note": ""
  },
  {
   "property": "C15",
   "status": "proved",
   "theorems": [
    "C15_write",
    "C15_write_min_refuted",
    "C15_read",
    "C15_read_cltv",
    "C15_read_iff_written",
    "C15_write_read",
    "C15_write_read_cltv",
    "C15_non_minimal",
    "C15_agree",
    "C15_bool",
    "C15_push_int",
    "C15_push_int_min",
    "C15_push_int_unchecked"
   ],
   "note": "The literal claim fails on corner cases, shown with witnesses by C15_write_min_refuted; the other theorems prove it with the exact side conditions."
  },
  {
   "property": "C16",
   "status": "proved",
   "theorems": [
    "C16_witness_version",
    "C16_one_to_one",
    "C16_predicates",
    "C16_exclusive",
    "C16_build",
    "C16_program_round_trip",
    "C16_program_new",
    "C16_p2wpkh_script_code",
    "C16_push_only",
    "C16_redeem_script",
    "C16_multisig",
    "C16_multisig_total_refuted",
    "C16_op_return",
    "C16_version_opcode",
    "C16_version_text",
    "C16_version_instruction"
   ],
   "note": "The literal claim fails on corner cases, shown with witnesses by C16_multisig_total_refuted; the other theorems prove it with the exact side conditions."
  },
  {
   "property": "C17",
   "status": "proved",
   "theorems": [
    "C17_amount_chain_exact",
    "C17_signed_chain_exact",
    "C17_amount_sum_exact",
    "C17_from_sat_range",
    "C17_conversions_total",
    "C17_signed_conversions_total",
    "C17_signed_sub_total",
    "C17_positive_sub",
    "C17_small_constructors",
    "C17_small_integers",
    "C17_sign"
   ],
   "note": ""
  },
  {
   "property": "C18",
   "status": "proved",
   "theorems": [
    "C18_errors",
    "C18_not_zero_refuted",
    "C18_rounded",
    "C18_rounded_refuted",
    "C18_parse",
    "C18_parse_signed",
    "C18_unambiguous",
    "C18_out_of_range",
    "C18_total",
    "C18_denomination",
    "C18_with_denomination",
    "C18_from_str",
    "C18_format",
    "C18_display",
    "C18_round_trip",
    "C18_round_trip_signed",
    "C18_round_trip_denomination",
    "C18_round_trip_display",
    "C18_needs_digit_refuted"
   ],
   "note": "The literal claim fails on corner cases, shown with witnesses by C18_not_zero_refuted, C18_rounded_refuted, C18_needs_digit_refuted; the other theorems prove it with the exact side conditions."
  },
  {
   "property": "C19",
   "status": "proved",
   "theorems": [
    "C19_fee_covers",
    "C19_fee_least_for_kwu_rates",
    "C19_fee_least_refuted",
    "C19_fee_error_iff",
    "C19_fee_monotone",
    "C19_div_by_fee_rate_floor_largest",
    "C19_div_by_fee_rate_total",
    "C19_div_by_fee_rate_ceil",
    "C19_div_by_weight_floor",
    "C19_div_by_weight_ceil",
    "C19_weight_conversions",
    "C19_feerate_conversions",
    "C19_feerate_u32_roundtrip",
    "C19_feerate_from_per",
    "C19_rate_arithmetic"
   ],
   "note": "The literal claim fails on corner cases, shown with witnesses by C19_fee_least_refuted; the other theorems prove it with the exact side conditions."
  },
  {
   "property": "C20",
   "status": "proved",
   "theorems": [
    "C20_bijection",
    "C20_constructors",
    "C20_satisfied",
    "C20_implied",
    "C20_implied_unit",
    "C20_max_time_refuted",
    "C20_transaction",
    "C20_units",
    "C20_message"
   ],
   "note": "The literal claim fails on corner cases, shown with witnesses by C20_max_time_refuted; the other theorems prove it with the exact side conditions."
  },
  {
   "property": "C21",
   "status": "proved",
   "theorems": [
    "C21_decode",
    "C21_encode",
    "C21_satisfied",
    "C21_satisfied_unconfirmed",
    "C21_errors",
    "C21_implied",
    "C21_implied_by_sequence",
    "C21_seconds",
    "C21_signals",
    "C21_error_values",
    "C21_message_refuted",
    "C21_overflow_message"
   ],
   "note": "The literal claim fails on corner cases, shown with witnesses by C21_message_refuted; the other theorems prove it with the exact side conditions."
  },
  {
   "property": "C22",
   "status": "proved",
   "theorems": [
    "C22_add",
    "C22_sub",
    "C22_mul",
    "C22_mul_u64",
    "C22_div",
    "C22_div_zero",
    "C22_shift",
    "C22_inc_not",
    "C22_order",
    "C22_bits",
    "C22_tests",
    "C22_constants",
    "C22_bytes",
    "C22_from_bytes",
    "C22_decimal",
    "C22_binary_octal",
    "C22_hex",
    "C22_parse",
    "C22_parse_print",
    "C22_parse_exact",
    "C22_parse_total",
    "C22_parse_exact_refuted",
    "C22_to_f64"
   ],
   "note": "The literal claim fails on corner cases, shown with witnesses by C22_parse_exact_refuted; the other theorems prove it with the exact side conditions."
  },
  {
   "property": "C23",
   "status": "proved",
   "theorems": [
    "C23_decode",
    "C23_decode_small",
    "C23_decode_refuted",
    "C23_encode",
    "C23_encode_precision",
    "C23_canonical",
    "C23_limits"
   ],
   "note": "The literal claim fails on corner cases, shown with witnesses by C23_decode_refuted; the other theorems prove it with the exact side conditions."
  },
  {
   "property": "C24",
   "status": "proved",
   "theorems": [
    "C24_work",
    "C24_work_zero",
    "C24_work_refuted",
    "C24_antitone",
    "C24_to_target",
    "C24_round_trip",
    "C24_total",
    "C24_sub"
   ],
   "note": "The literal claim fails on corner cases, shown with witnesses by C24_work_refuted; the other theorems prove it with the exact side conditions."
  },
  {
   "property": "C25",
   "status": "proved",
   "theorems": [
    "C25_is_met_by",
    "C25_validate",
    "C25_header_work",
    "C25_difficulty",
    "C25_thresholds",
    "C25_max_threshold_refuted",
    "C25_retarget",
    "C25_retarget_params",
    "C25_retarget_regtest",
    "C25_bounds",
    "C25_min_threshold_refuted",
    "C25_from_headers",
    "C25_next_retarget",
    "C25_next_keep",
    "C25_next_min_difficulty",
    "C25_next_no_time",
    "C25_next_time_refuted"
   ],
   "note": "The literal claim fails on corner cases, shown with witnesses by C25_max_threshold_refuted, C25_min_threshold_refuted, C25_next_time_refuted; the other theorems prove it with the exact side conditions."
  },
  {
   "property": "C26",
   "status": "proved",
   "theorems": [
    "C26_base58_bijection",
    "C26_encode",
    "C26_encode_90",
    "C26_encode_never_panics_refuted",
    "C26_encode_no_alloc",
    "C26_decode",
    "C26_decode_errors",
    "C26_roundtrip",
    "C26_injective",
    "C26_leading",
    "C26_array",
    "C26_array_errors",
    "C26_sizes",
    "C26_reserved",
    "C26_payload_sizes",
    "C26_address_sizes"
   ],
   "note": "The literal claim fails on corner cases, shown with witnesses by C26_encode_never_panics_refuted; the other theorems prove it with the exact side conditions."
  },
  {
   "property": "C27",
   "status": "proved",
   "theorems": [
    "C27_every_splitting",
    "C27_at_once",
    "C27_lengths",
    "C27_history",
    "C27_midstate",
    "C27_resume",
    "C27_update_64",
    "C27_unoptimized",
    "C27_tagged",
    "C27_many",
    "C27_input_total",
    "C27_finalize_total_refuted",
    "C27_again"
   ],
   "note": "The literal claim fails on corner cases, shown with witnesses by C27_finalize_total_refuted; the other theorems prove it with the exact side conditions."
  },
  {
   "property": "C28",
   "status": "proved",
   "theorems": [
    "C28_sizes",
    "C28_hmac",
    "C28_hmac_total_refuted",
    "C28_extract",
    "C28_expand",
    "C28_expand_max_refuted",
    "C28_expand_len",
    "C28_fixed_time_eq"
   ],
   "note": "The literal claim fails on corner cases, shown with witnesses by C28_hmac_total_refuted, C28_expand_max_refuted; the other theorems prove it with the exact side conditions."
  },
  {
   "property": "C29",
   "status": "proved",
   "theorems": [
    "C29_keystream",
    "C29_pieces",
    "C29_seek",
    "C29_set_block",
    "C29_get_keystream",
    "C29_last_byte_refuted",
    "C29_max_plaintext_refuted",
    "C29_poly1305",
    "C29_encrypt",
    "C29_decrypt",
    "C29_roundtrip",
    "C29_forgery"
   ],
   "note": "The literal claim fails on corner cases, shown with witnesses by C29_last_byte_refuted, C29_max_plaintext_refuted; the other theorems prove it with the exact side conditions."
  },
  {
   "property": "C30",
   "status": "proved",
   "theorems": [
    "C30_bits_written",
    "C30_bits_read",
    "C30_bits_eof",
    "C30_bits_round_trip",
    "C30_bits_limit",
    "C30_golomb_round_trip",
    "C30_golomb_parameter_refuted",
    "C30_elements",
    "C30_filter_written",
    "C30_filter_canonical",
    "C30_filter_overflow",
    "C30_match",
    "C30_match_filter",
    "C30_no_false_negative",
    "C30_empty_query",
    "C30_match_total",
    "C30_match_overflow",
    "C30_match_total_refuted",
    "C30_bad_count",
    "C30_cut",
    "C30_block_filter",
    "C30_block_no_false_negative",
    "C30_missing_coin",
    "C30_reader",
    "C30_reader_iff",
    "C30_reader_no_false_negative",
    "C30_writer",
    "C30_block_writer",
    "C30_bits_broken",
    "C30_bits_reuse_refuted",
    "C30_bits_flush_again"
   ],
   "note": "The literal claim fails on corner cases, shown with witnesses by C30_golomb_parameter_refuted, C30_match_total_refuted, C30_bits_reuse_refuted; the other theorems prove it with the exact side conditions."
  },
  {
   "property": "C31",
   "status": "proved",
   "theorems": [
    "C31_build",
    "C31_build_panics",
    "C31_total",
    "C31_accepts",
    "C31_round_trip",
    "C31_sound",
    "C31_count_refuted",
    "C31_merkle_block",
    "C31_from_block",
    "C31_encode",
    "C31_decode",
    "C31_decode_encode",
    "C31_transport",
    "C31_block_codec",
    "C31_decode_total",
    "C31_padding",
    "C31_one_message_refuted",
    "C31_counts",
    "C31_many_bits",
    "C31_size",
    "C31_size_refuted"
   ],
   "note": "The literal claim fails on corner cases, shown with witnesses by C31_count_refuted, C31_one_message_refuted, C31_size_refuted; the other theorems prove it with the exact side conditions."
  },
  {
   "property": "C32",
   "status": "proved",
   "theorems": [
    "C32_prefilled_wire",
    "C32_compact_wire",
    "C32_request_wire",
    "C32_transactions_wire",
    "C32_encode",
    "C32_no_panic",
    "C32_indices",
    "C32_increasing",
    "C32_decoded_indices",
    "C32_from_indices",
    "C32_from_unsorted",
    "C32_unsorted_total_refuted",
    "C32_request_round_trip",
    "C32_from_request",
    "C32_answer",
    "C32_placed",
    "C32_version",
    "C32_from_block",
    "C32_invalid_prefill",
    "C32_prefill_refused_refuted",
    "C32_round_trip",
    "C32_index_refuted",
    "C32_decoded_positions_refuted"
   ],
   "note": "The literal claim fails on corner cases, shown with witnesses by C32_unsorted_total_refuted, C32_prefill_refused_refuted, C32_index_refuted, C32_decoded_positions_refuted; the other theorems prove it with the exact side conditions."
  },
  {
   "property": "C33",
   "status": "proved",
   "theorems": [
    "C33_extra",
    "C33_cut",
    "C33_no_relay_refuted",
    "C33_signed_alert_refuted",
    "C33_final_alert",
    "C33_v1_decodes",
    "C33_v1_slice",
    "C33_v1_read",
    "C33_v1_unbuffered",
    "C33_v1_no_panic",
    "C33_v1_encode",
    "C33_v1_round_trip",
    "C33_command_total",
    "C33_relay_refuted",
    "C33_unknown_refuted",
    "C33_v2_decodes",
    "C33_v2_slice",
    "C33_v2_read",
    "C33_v2_unbuffered",
    "C33_v2_no_panic",
    "C33_v2_round_trip",
    "C33_v2_unknown_refuted",
    "C33_v2_long_form_refuted",
    "C33_command_of",
    "C33_command_text",
    "C33_command_wire",
    "C33_utf8",
    "C33_utf8_encode",
    "C33_fee_filter_total",
    "C33_fee_filter_rounds",
    "C33_fee_filter_refuted",
    "C33_addr_v2_encoder",
    "C33_addr_v2_iterator_refuted",
    "C33_addr_v2_wire",
    "C33_addr_v2_round_trip_refuted",
    "C33_inventory_wire",
    "C33_inventory_refuted",
    "C33_feature_id",
    "C33_feature_data",
    "C33_services",
    "C33_locator",
    "C33_connected",
    "C33_filter_headers",
    "C33_filter_header_chain",
    "C33_network_hash",
    "C33_service_operators",
    "C33_xor_refuted"
   ],
   "note": "The literal claim fails on corner cases, shown with witnesses by C33_no_relay_refuted, C33_signed_alert_refuted, C33_relay_refuted, C33_unknown_refuted, C33_v2_unknown_refuted, C33_v2_long_form_refuted, C33_fee_filter_refuted, C33_addr_v2_iterator_refuted, C33_addr_v2_round_trip_refuted, C33_inventory_refuted, C33_xor_refuted; the other theorems prove it with the exact side conditions."
  },
  {
   "property": "C34",
   "status": "proved",
   "theorems": [
    "C34_builder",
    "C34_builder_exact",
    "C34_builder_total",
    "C34_builder_prefix",
    "C34_builder_accepts_refuted",
    "C34_builder_complete_stays",
    "C34_leaves",
    "C34_sorted",
    "C34_path_sound",
    "C34_finalize",
    "C34_finalize_unfinished",
    "C34_control_block",
    "C34_commitment",
    "C34_key_only",
    "C34_leaf_version",
    "C34_leaf_version_back",
    "C34_decode",
    "C34_encode",
    "C34_round_trip_refuted",
    "C34_branch_codec",
    "C34_branch_collection",
    "C34_huffman",
    "C34_huffman_depth",
    "C34_huffman_spend",
    "C34_serde",
    "C34_tap_tree_hidden",
    "C34_serde_hidden_refuted",
    "C34_add_leaf"
   ],
   "note": "The literal claim fails on corner cases, shown with witnesses by C34_builder_accepts_refuted, C34_round_trip_refuted, C34_serde_hidden_refuted; the other theorems prove it with the exact side conditions."
  },
  {
   "property": "C35",
   "status": "proved",
   "theorems": [
    "C35_child_number",
    "C35_child_index",
    "C35_increment",
    "C35_child_parse",
    "C35_child_round_trip",
    "C35_child_errors",
    "C35_relative_parse",
    "C35_absolute_parse",
    "C35_kinds_disjoint",
    "C35_path_round_trip",
    "C35_path_text",
    "C35_relative_errors",
    "C35_absolute_errors",
    "C35_children",
    "C35_join",
    "C35_derive_private",
    "C35_derive_public",
    "C35_commute",
    "C35_no_hardened",
    "C35_path_compose",
    "C35_descendants",
    "C35_leak",
    "C35_seed",
    "C35_master",
    "C35_encode",
    "C35_decode",
    "C35_decode_errors",
    "C35_round_trip_refuted",
    "C35_round_trip",
    "C35_disjoint",
    "C35_text",
    "C35_text_parse",
    "C35_text_total",
    "C35_radix",
    "C35_radix_injective"
   ],
   "note": "The literal claim fails on corner cases, shown with witnesses by C35_round_trip_refuted; the other theorems prove it with the exact side conditions."
  },
  {
   "property": "C36",
   "status": "proved",
   "theorems": [
    "C36_stripped",
    "C36_base_size",
    "C36_total_size",
    "C36_weight",
    "C36_vsize",
    "C36_txin",
    "C36_txout",
    "C36_predict_weight",
    "C36_predict_agree",
    "C36_predict_no_inputs_refuted",
    "C36_prediction_overflow_refuted"
   ],
   "note": "The literal claim fails on corner cases, shown with witnesses by C36_predict_no_inputs_refuted, C36_prediction_overflow_refuted; the other theorems prove it with the exact side conditions."
  },
  {
   "property": "C37",
   "status": "proved",
   "theorems": [
    "C37_decimal",
    "C37_unambiguous",
    "C37_decimal_error",
    "C37_decimal_round_trip",
    "C37_printed",
    "C37_hex",
    "C37_hex_exclusive",
    "C37_hex_round_trip",
    "C37_hex256",
    "C37_hex256_plus_refuted",
    "C37_lock_time",
    "C37_lock_time_hex",
    "C37_wrapper"
   ],
   "note": "The literal claim fails on corner cases, shown with witnesses by C37_hex256_plus_refuted; the other theorems prove it with the exact side conditions."
  },
  {
   "property": "C38",
   "status": "proved",
   "theorems": [
    "C38_every_splitting",
    "C38_at_once",
    "C38_u64_roundtrip",
    "C38_range"
   ],
   "note": ""
  },
  {
   "property": "C39",
   "status": "proved",
   "theorems": [
    "C39_writer_taproot",
    "C39_writer_segwit",
    "C39_writer_legacy",
    "C39_single_bug",
    "C39_refused_writes_refuted",
    "C39_taproot",
    "C39_taproot_paths",
    "C39_leaf_hash",
    "C39_annex",
    "C39_segwit",
    "C39_p2wpkh",
    "C39_legacy",
    "C39_cache",
    "C39_stale",
    "C39_cache_refuted",
    "C39_taproot_commits",
    "C39_taproot_ignores",
    "C39_taproot_index_refuted",
    "C39_segwit_commits",
    "C39_segwit_ignores",
    "C39_legacy_commits",
    "C39_legacy_ignores",
    "C39_type_text",
    "C39_type_numbers",
    "C39_legacy_position",
    "C39_legacy_position_refuted",
    "C39_legacy_single"
   ],
   "note": "The literal claim fails on corner cases, shown with witnesses by C39_refused_writes_refuted, C39_cache_refuted, C39_taproot_index_refuted, C39_legacy_position_refuted; the other theorems prove it with the exact side conditions."
  },
  {
   "property": "C40",
   "status": "proved",
   "theorems": [
    "C40_median",
    "C40_locator",
    "C40_arithmetic",
    "C40_sum"
   ],
   "note": ""
  },
  {
   "property": "C41",
   "status": "proved",
   "theorems": [
    "C41_count",
    "C41_additive",
    "C41_accurate_additive_refuted",
    "C41_total_cost",
    "C41_p2sh_push_only_refuted"
   ],
   "note": "The literal claim fails on corner cases, shown with witnesses by C41_accurate_additive_refuted, C41_p2sh_push_only_refuted; the other theorems prove it with the exact side conditions."
  },
  {
   "property": "C42",
   "status": "proved",
   "theorems": [
    "C42_history",
    "C42_from_slice",
    "C42_equality",
    "C42_order",
    "C42_serde"
   ],
   "note": ""
  },
  {
   "property": "C43",
   "status": "proved",
   "theorems": [
    "C43_slice",
    "C43_cursor",
    "C43_take",
    "C43_slice_read",
    "C43_cursor_read",
    "C43_consecutive",
    "C43_limit",
    "C43_consume_too_much",
    "C43_read_exact",
    "C43_read_exact_ends",
    "C43_read_exact_iff",
    "C43_read_to_limit",
    "C43_read_to_limit_iff",
    "C43_conditions",
    "C43_world",
    "C43_write_all",
    "C43_writers",
    "C43_vec_write",
    "C43_slice_write",
    "C43_cursor_write",
    "C43_overwrite",
    "C43_overwrite_else",
    "C43_sink",
    "C43_hash_reader",
    "C43_hash_reader_ends",
    "C43_hash_slice",
    "C43_hash_retries_refuted",
    "C43_cursor_seek"
   ],
   "note": "The literal claim fails on corner cases, shown with witnesses by C43_hash_retries_refuted; the other theorems prove it with the exact side conditions."
  },
  {
   "property": "C44",
   "status": "proved",
   "theorems": [
    "C44_hash_round_trip",
    "C44_hash",
    "C44_outpoint_round_trip",
    "C44_outpoint"
   ],
   "note": ""
  },
  {
   "property": "C45",
   "status": "proved",
   "theorems": [
    "C45_annex",
    "C45_leaf_script",
    "C45_control_block",
    "C45_big_element_refuted",
    "C45_witness_script"
   ],
   "note": "The literal claim fails on corner cases, shown with witnesses by C45_big_element_refuted; the other theorems prove it with the exact side conditions."
  },
  {
   "property": "C46",
   "status": "proved",
   "theorems": [
    "C46_validate",
    "C46_errors",
    "C46_binds"
   ],
   "note": ""
  },
  {
   "property": "C48",
   "status": "proved",
   "theorems": [
    "C48_dust",
    "C48_dust_custom",
    "C48_effective_value",
    "C48_effective_value_refuted"
   ],
   "note": "The literal claim fails on corner cases, shown with witnesses by C48_effective_value_refuted; the other theorems prove it with the exact side conditions."
  },
  {
   "property": "C47",
   "status": "proved",
   "theorems": [
    "C47_display",
    "C47_parse",
    "C47_parse_forms",
    "C47_round_trip",
    "C47_one_text",
    "C47_prefixes",
    "C47_parse_errors",
    "C47_script",
    "C47_from_script",
    "C47_matches",
    "C47_matches_refuted",
    "C47_network",
    "C47_network_separation",
    "C47_type",
    "C47_type_text",
    "C47_constructors",
    "C47_related",
    "C47_related_own",
    "C47_related_refuted",
    "C47_three_errors",
    "C47_burst_errors",
    "C47_payload",
    "C47_canonical",
    "C47_canonical_refuted"
   ],
   "note": "The literal claim fails on corner cases, shown with witnesses by C47_matches_refuted, C47_related_refuted, C47_canonical_refuted; the other theorems prove it with the exact side conditions."
  },
  {
   "property": "C49",
   "status": "proved",
   "theorems": [
    "C49_public_bytes",
    "C49_public_errors",
    "C49_public_injective",
    "C49_public_text",
    "C49_public_text_errors",
    "C49_full",
    "C49_full_legacy",
    "C49_hashes",
    "C49_sort",
    "C49_secret",
    "C49_negate",
    "C49_to_public",
    "C49_wif_write",
    "C49_wif_read",
    "C49_wif_round_trip",
    "C49_wif_errors",
    "C49_wif_prefix",
    "C49_form"
   ],
   "note": ""
  },
  {
   "property": "C50",
   "status": "proved",
   "theorems": [
    "C50_iterator_debug",
    "C50_iterator_debug_refuted",
    "C50_ecdsa_read",
    "C50_ecdsa_read_errors",
    "C50_ecdsa_write",
    "C50_ecdsa_injective",
    "C50_ecdsa_text",
    "C50_taproot_read",
    "C50_taproot_read_errors",
    "C50_taproot_write",
    "C50_taproot_injective",
    "C50_taproot_text",
    "C50_taproot_text_errors",
    "C50_iterator",
    "C50_sighash_all"
   ],
   "note": "The literal claim fails on corner cases, shown with witnesses by C50_iterator_debug_refuted; the other theorems prove it with the exact side conditions."
  },
  {
   "property": "C51",
   "status": "proved",
   "theorems": [
    "C51_core_arg",
    "C51_display",
    "C51_kind",
    "C51_magic",
    "C51_magic_text",
    "C51_ports",
    "C51_rpc_port_refuted",
    "C51_chain_hash",
    "C51_chain_hash_text",
    "C51_genesis",
    "C51_genesis_total",
    "C51_services"
   ],
   "note": "The literal claim fails on corner cases, shown with witnesses by C51_rpc_port_refuted; the other theorems prove it with the exact side conditions."
  },
  {
   "property": "C52",
   "status": "proved",
   "theorems": [
    "C52_hash",
    "C52_write",
    "C52_read",
    "C52_read_errors",
    "C52_round_trip",
    "C52_canonical",
    "C52_read_exact_refuted",
    "C52_text_write",
    "C52_text_read",
    "C52_text_errors",
    "C52_text_round_trip",
    "C52_base64",
    "C52_sign_verifies",
    "C52_verify",
    "C52_verify_binds",
    "C52_verify_types"
   ],
   "note": "The literal claim fails on corner cases, shown with witnesses by C52_read_exact_refuted; the other theorems prove it with the exact side conditions."
  },
  {
   "property": "C53",
   "status": "proved",
   "theorems": [
    "C53_names",
    "C53_text",
    "C53_text_injective",
    "C53_truncated",
    "C53_total",
    "C53_truncated_refuted"
   ],
   "note": "The literal claim fails on corner cases, shown with witnesses by C53_truncated_refuted; the other theorems prove it with the exact side conditions."
  },
  {
   "property": "C54",
   "status": "proved",
   "theorems": [
    "C54_height_read",
    "C54_height_fun",
    "C54_height",
    "C54_height_push",
    "C54_checked",
    "C54_total_size",
    "C54_weight",
    "C54_signalling"
   ],
   "note": ""
  },
  {
   "property": "C55",
   "status": "proved",
   "theorems": [
    "C55_plain",
    "C55_options",
    "C55_width",
    "C55_width_refuted",
    "C55_precision_refuted",
    "C55_tx_from_str",
    "C55_block_from_str",
    "C55_header_from_str",
    "C55_script_from_str",
    "C55_display_parse",
    "C55_errors",
    "C55_no_prefix",
    "C55_witness_from_hex",
    "C55_script_case",
    "C55_case"
   ],
   "note": "The literal claim fails on corner cases, shown with witnesses by C55_width_refuted, C55_precision_refuted; the other theorems prove it with the exact side conditions."
  },
  {
   "property": "C56",
   "status": "proved",
   "theorems": [
    "C56_hash",
    "C56_hash_accepts",
    "C56_consensus",
    "C56_script",
    "C56_script_accepts",
    "C56_witness",
    "C56_witness_accepts",
    "C56_witness_panic",
    "C56_outpoint",
    "C56_outpoint_sequence_refuted",
    "C56_leaf",
    "C56_leaf_version_accepts",
    "C56_tree",
    "C56_tree_accepts",
    "C56_tree_compact",
    "C56_tree_compact_refuted",
    "C56_branch",
    "C56_branch_accepts",
    "C56_array_vec",
    "C56_array_vec_accepts",
    "C56_safe"
   ],
   "note": "The literal claim fails on corner cases, shown with witnesses by C56_outpoint_sequence_refuted, C56_tree_compact_refuted; the other theorems prove it with the exact side conditions."
  },
  {
   "property": "C57",
   "status": "proved",
   "theorems": [
    "C57_hash_types",
    "C57_network",
    "C57_path",
    "C57_path_accepts",
    "C57_extended",
    "C57_extended_accepts",
    "C57_address",
    "C57_address_accepts",
    "C57_wif",
    "C57_wif_accepts",
    "C57_legacy",
    "C57_legacy_accepts",
    "C57_full",
    "C57_full_accepts",
    "C57_xonly",
    "C57_xonly_accepts",
    "C57_xonly_parity_refuted",
    "C57_u256",
    "C57_u256_accepts",
    "C57_u256_plus_refuted",
    "C57_numbers",
    "C57_numbers_accept",
    "C57_block_version",
    "C57_witness_version",
    "C57_absolute",
    "C57_heights",
    "C57_relative",
    "C57_amount_sat",
    "C57_amount_sat_vec",
    "C57_amount_sat_accepts",
    "C57_amount_str",
    "C57_amount_str_vec",
    "C57_amount_str_accepts",
    "C57_amount_str_opt",
    "C57_amount_str_opt_refuted",
    "C57_fee",
    "C57_fee_exact",
    "C57_fee_refuted",
    "C57_fee_accepts",
    "C57_fee_lists"
   ],
   "note": "The literal claim fails on corner cases, shown with witnesses by C57_xonly_parity_refuted, C57_u256_plus_refuted, C57_amount_str_opt_refuted, C57_fee_refuted; the other theorems prove it with the exact side conditions."
  },
  {
   "property": "C58",
   "status": "proved",
   "theorems": [
    "C58_read",
    "C58_read_ends",
    "C58_read_iff",
    "C58_unbuffered",
    "C58_unbuffered_ends",
    "C58_unbuffered_iff",
    "C58_zero_buffer",
    "C58_read_value",
    "C58_stream",
    "C58_write",
    "C58_write_ends",
    "C58_write_willing",
    "C58_conditions",
    "C58_transaction"
   ],
   "note": ""
  },
  {
   "property": "C59",
   "status": "proved",
   "theorems": [
    "C59_verify",
    "C59_lookup",
    "C59_default",
    "C59_spent_once",
    "C59_needs_forgetting"
   ],
   "note": ""
  },
  {
   "property": "C60",
   "status": "proved",
   "theorems": [
    "C60_hardware_blocks",
    "C60_hardware_batches",
    "C60_blocks",
    "C60_hash",
    "C60_engine",
    "C60_many",
    "C60_same_everywhere"
   ],
   "note": ""
  },
  {
   "property": "C61",
   "status": "proved",
   "theorems": [
    "C61_p2wpkh",
    "C61_p2wsh",
    "C61_p2tr_key",
    "C61_p2tr_script",
    "C61_scripts",
    "C61_builder",
    "C61_unspendable",
    "C61_op_return",
    "C61_virtual_size",
    "C61_push_signature",
    "C61_annex_refuted"
   ],
   "note": "The literal claim fails on corner cases, shown with witnesses by C61_annex_refuted; the other theorems prove it with the exact side conditions."
  },
  {
   "property": "C62",
   "status": "proved",
   "theorems": [
    "C62_to_float",
    "C62_closest_unique",
    "C62_to_btc",
    "C62_from_float_signed",
    "C62_from_float",
    "C62_round_trip",
    "C62_prints",
    "C62_ordered",
    "C62_total",
    "C62_minus_zero_refuted",
    "C62_serde",
    "C62_serde_vec",
    "C62_serde_vec_accepts",
    "C62_hex"
   ],
   "note": "The literal claim fails on corner cases, shown with witnesses by C62_minus_zero_refuted; the other theorems prove it with the exact side conditions."
  },
  {
   "property": "C63",
   "status": "proved",
   "theorems": [
    "C63_exact",
    "C63_sizes",
    "C63_never_low",
    "C63_ground",
    "C63_high_s_refuted"
   ],
   "note": "The literal claim fails on corner cases, shown with witnesses by C63_high_s_refuted; the other theorems prove it with the exact side conditions."
  },
  {
   "property": "C64",
   "status": "proved",
   "theorems": [
    "C64_new",
    "C64_socket",
    "C64_round_trip",
    "C64_back",
    "C64_loopback_refuted",
    "C64_v2",
    "C64_wire",
    "C64_useless"
   ],
   "note": "The literal claim fails on corner cases, shown with witnesses by C64_loopback_refuted; the other theorems prove it with the exact side conditions."
  },
  {
   "property": "C65",
   "status": "proved",
   "theorems": [
    "C65_result",
    "C65_plain",
    "C65_operation",
    "C65_div_by_zero",
    "C65_cause_refuted",
    "C65_no_panic",
    "C65_accumulate_refuted",
    "C65_kinds"
   ],
   "note": "The literal claim fails on corner cases, shown with witnesses by C65_cause_refuted, C65_accumulate_refuted; the other theorems prove it with the exact side conditions."
  },
  {
   "property": "C66",
   "status": "proved",
   "theorems": [
    "C66_transaction",
    "C66_parts",
    "C66_first",
    "C66_sort",
    "C66_witness",
    "C66_witness_refuted",
    "C66_block",
    "C66_signature",
    "C66_node",
    "C66_node_refuted"
   ],
   "note": "The literal claim fails on corner cases, shown with witnesses by C66_witness_refuted, C66_node_refuted; the other theorems prove it with the exact side conditions."
  },
  {
   "property": "C67",
   "status": "proved",
   "theorems": [
    "C67_history",
    "C67_unique",
    "C67_start",
    "C67_range",
    "C67_index",
    "C67_pushed"
   ],
   "note": ""
  },
  {
   "property": "C68",
   "status": "proved",
   "theorems": [
    "C68_chunks",
    "C68_chunks_write",
    "C68_get_array",
    "C68_get_array_refuted",
    "C68_split_chunk",
    "C68_sub_array",
    "C68_split_array",
    "C68_items"
   ],
   "note": "The literal claim fails on corner cases, shown with witnesses by C68_get_array_refuted; the other theorems prove it with the exact side conditions."
  },
  {
   "property": "C69",
   "status": "proved",
   "theorems": [
    "C69_text",
    "C69_add",
    "C69_unambiguous",
    "C69_read_back",
    "C69_date_refuted",
    "C69_comment_refuted",
    "C69_bytes",
    "C69_bytes_refuted"
   ],
   "note": "The literal claim fails on corner cases, shown with witnesses by C69_date_refuted, C69_comment_refuted, C69_bytes_refuted; the other theorems prove it with the exact side conditions."
  },
  {
   "property": "C70",
   "status": "proved",
   "theorems": [
    "C70_accurate",
    "C70_nearest",
    "C70_whole",
    "C70_monotone",
    "C70_one",
    "C70_header"
   ],
   "note": ""
  },
  {
   "property": "C71",
   "status": "proved",
   "theorems": [
    "C71_amount",
    "C71_signed_amount",
    "C71_lock_times",
    "C71_sequence",
    "C71_block_number",
    "C71_block_number_refuted",
    "C71_fee_filter",
    "C71_transaction",
    "C71_transaction_all",
    "C71_transaction_panic",
    "C71_ecdsa_signature",
    "C71_sighash_types",
    "C71_xpriv",
    "C71_xpub",
    "C71_xpub_refuted",
    "C71_leaf_version",
    "C71_tap_tree_refuted",
    "C71_branch",
    "C71_tap_nodes",
    "C71_prediction_refuted",
    "C71_prediction",
    "C71_addr_v2",
    "C71_inventory",
    "C71_inventory_refuted",
    "C71_command",
    "C71_pmt",
    "C71_inventory_all",
    "C71_pmt_all",
    "C71_user_agent",
    "C71_user_agent_panic",
    "C71_user_agent_refuted",
    "C71_header",
    "C71_block",
    "C71_block_all",
    "C71_block_panic",
    "C71_message",
    "C71_message_refuted",
    "C71_request_refuted",
    "C71_message_kinds",
    "C71_message_kinds_refuted",
    "C71_message_every",
    "C71_reasons"
   ],
   "note": "The literal claim fails on corner cases, shown with witnesses by C71_block_number_refuted, C71_xpub_refuted, C71_tap_tree_refuted, C71_prediction_refuted, C71_inventory_refuted, C71_user_agent_refuted, C71_message_refuted, C71_request_refuted, C71_message_kinds_refuted; the other theorems prove it with the exact side conditions."
  },
  {
   "property": "C72",
   "status": "proved",
   "theorems": [
    "C72_kinds",
    "C72_round_trip",
    "C72_from_std",
    "C72_decisive",
    "C72_os_refuted",
    "C72_kind_refuted",
    "C72_display",
    "C72_read_error",
    "C72_adapters",
    "C72_read_exact",
    "C72_write_all",
    "C72_write_zero_refuted"
   ],
   "note": "The literal claim fails on corner cases, shown with witnesses by C72_os_refuted, C72_kind_refuted, C72_write_zero_refuted; the other theorems prove it with the exact side conditions."
  },
  {
   "property": "C73",
   "status": "proved",
   "theorems": [
    "C73_hash",
    "C73_parts",
    "C73_transaction",
    "C73_count",
    "C73_count_more",
    "C73_count_refuted"
   ],
   "note": "The literal claim fails on corner cases, shown with witnesses by C73_count_refuted; the other theorems prove it with the exact side conditions."
  },
  {
   "property": "C74",
   "status": "proved",
   "theorems": [
    "C74_curve",
    "C74_tweak",
    "C74_tweak_value",
    "C74_verify",
    "C74_key_spend",
    "C74_script_spend",
    "C74_output_script",
    "C74_negate",
    "C74_full_key",
    "C74_private",
    "C74_private_refuted",
    "C74_spend"
   ],
   "note": "The literal claim fails on corner cases, shown with witnesses by C74_private_refuted; the other theorems prove it with the exact side conditions."
  },
  {
   "property": "C75",
   "status": "proved",
   "theorems": [
    "C75_four_errors",
    "C75_three_errors",
    "C75_swap",
    "C75_lengths",
    "C75_four_errors_refuted"
   ],
   "note": "The literal claim fails on corner cases, shown with witnesses by C75_four_errors_refuted; the other theorems prove it with the exact side conditions."
  },
  {
   "property": "C76",
   "status": "proved",
   "theorems": [
    "C76_proof",
    "C76_spv",
    "C76_block",
    "C76_download",
    "C76_filter",
    "C76_filter_checked",
    "C76_compact"
   ],
   "note": ""
  },
  {
   "property": "C77",
   "status": "proved",
   "theorems": [
    "C77_direction",
    "C77_valid_range",
    "C77_valid_range_refuted",
    "C77_message_refuted",
    "C77_version",
    "C77_interval"
   ],
   "note": "The literal claim fails on corner cases, shown with witnesses by C77_valid_range_refuted, C77_message_refuted; the other theorems prove it with the exact side conditions."
  },
  {
   "property": "C78",
   "status": "proved",
   "theorems": [
    "C78_stream",
    "C78_encoders",
    "C78_consensus",
    "C78_p2p",
    "C78_version",
    "C78_message",
    "C78_transaction",
    "C78_block",
    "C78_addr_v2"
   ],
   "note": ""
  }
 ]
}