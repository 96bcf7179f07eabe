{
 "claims": [
  {
   "property": "C01",
   "status": "proved",
   "theorems": [
    "C01_compress_roundtrip",
    "C01_empty_vector_refuted"
   ],
   "note": ""
  },
  {
   "property": "C02",
   "status": "proved",
   "theorems": [
    "C02_compress_fails_iff_too_long",
    "C02_compress_length",
    "C02_cost_is_spec_length"
   ],
   "note": ""
  },
  {
   "property": "C03",
   "status": "proved",
   "theorems": [
    "C03_decompress_accepts_iff",
    "C03_spec_encoding_unique"
   ],
   "note": ""
  },
  {
   "property": "C04",
   "status": "proved",
   "theorems": [
    "C04_decompress_raises_iff",
    "C04_decompress_total_refuted"
   ],
   "note": ""
  },
  {
   "property": "C05",
   "status": "proved",
   "theorems": [
    "C05_encoding_malleable",
    "C05_canonical_iff_zero_padding"
   ],
   "note": ""
  },
  {
   "property": "C06",
   "status": "proved",
   "theorems": [
    "C06_modq_encode_ok",
    "C06_modq_roundtrip"
   ],
   "note": ""
  },
  {
   "property": "C07",
   "status": "proved",
   "theorems": [
    "C07_modq_canonical",
    "C07_modq_accepts_iff",
    "C07_modq_decode_refusal"
   ],
   "note": ""
  },
  {
   "property": "C08",
   "status": "proved",
   "theorems": [
    "C08_modq_encode_refuses_iff"
   ],
   "note": ""
  },
  {
   "property": "C09",
   "status": "proved",
   "theorems": [
    "C09_trim_encode_ok",
    "C09_trim_roundtrip",
    "C09_trim_encode_refuses_iff"
   ],
   "note": ""
  },
  {
   "property": "C10",
   "status": "proved",
   "theorems": [
    "C10_trim_canonical",
    "C10_trim_decode_refusal"
   ],
   "note": ""
  },
  {
   "property": "C11",
   "status": "proved",
   "theorems": [
    "C11_from_bytes_roundtrip",
    "C11_from_bytes_accepts_iff",
    "C11_897_bytes_determined",
    "C11_from_bytes_refusal"
   ],
   "note": ""
  },
  {
   "property": "C12",
   "status": "proved",
   "theorems": [
    "C12_no_1024_key",
    "C12_trailing_bytes_accepted"
   ],
   "note": ""
  },
  {
   "property": "C13",
   "status": "proved",
   "theorems": [
    "C13_complete_private",
    "C13_recovers_basis",
    "C13_out_of_range_refuted"
   ],
   "note": ""
  },
  {
   "property": "C14",
   "status": "proved",
   "theorems": [
    "C14_absorb_concat",
    "C14_refused_update_no_effect",
    "C14_overflow_refused_iff"
   ],
   "note": ""
  },
  {
   "property": "C15",
   "status": "proved",
   "theorems": [
    "C15_prng_refines_stream",
    "C15_reads_are_consecutive_slices",
    "C15_slice_length",
    "C15_read_sizes_irrelevant",
    "C15_exhaustion"
   ],
   "note": ""
  },
  {
   "property": "C16",
   "status": "proved",
   "theorems": [
    "C16_phase_discipline"
   ],
   "note": ""
  },
  {
   "property": "C17",
   "status": "proved",
   "theorems": [
    "C17_blake2s_refines_stream",
    "C17_blake2s_reads"
   ],
   "note": ""
  },
  {
   "property": "C18",
   "status": "proved",
   "theorems": [
    "C18_shake_reads_are_the_sponge_output",
    "C18_solidity_shake_is_the_sponge_output"
   ],
   "note": ""
  },
  {
   "property": "C19",
   "status": "proved",
   "theorems": [
    "C19_F1600_is_fips202",
    "C19_solidity_f1600_equals_python"
   ],
   "note": ""
  },
  {
   "property": "C20",
   "status": "proved",
   "theorems": [
    "C20_reads_are_chain_words",
    "C20_update_after_read_refused",
    "C20_other_sizes_refuted"
   ],
   "note": ""
  },
  {
   "property": "C21",
   "status": "proved",
   "theorems": [
    "C21_update_is_rfc8439_block",
    "C21_requests_are_refill_slices",
    "C21_request_lengths"
   ],
   "note": ""
  },
  {
   "property": "C22",
   "status": "proved",
   "theorems": [
    "C22_keccak_prng_filter",
    "C22_blake2s_prng_filter",
    "C22_shake_filter",
    "C22_keccaxof_filter",
    "C22_range_and_length",
    "C22_first_accepted_unique",
    "C22_keccak_prng_overflow",
    "C22_blake2s_prng_overflow"
   ],
   "note": ""
  },
  {
   "property": "C23",
   "status": "proved",
   "theorems": [
    "C23_five_preimages",
    "C23_rejected_words"
   ],
   "note": ""
  },
  {
   "property": "C24",
   "status": "proved",
   "theorems": [
    "C24_evm_equals_python",
    "C24_python_equals_evm"
   ],
   "note": ""
  },
  {
   "property": "C25",
   "status": "proved",
   "theorems": [
    "C25_nist_equals_python"
   ],
   "note": ""
  },
  {
   "property": "C26",
   "status": "proved",
   "theorems": [
    "C26_tetration_is_keccaxof_swapped",
    "C26_same_order_refuted"
   ],
   "note": ""
  },
  {
   "property": "C27",
   "status": "proved",
   "theorems": [
    "C27_falcon_completeness"
   ],
   "note": ""
  },
  {
   "property": "C28",
   "status": "proved",
   "theorems": [
    "C28_verify_outcome",
    "C28_verify_accepts_iff",
    "C28_verdict_stable"
   ],
   "note": ""
  },
  {
   "property": "C29",
   "status": "proved",
   "theorems": [
    "C29_parameters",
    "C29_signature_format"
   ],
   "note": ""
  },
  {
   "property": "C30",
   "status": "proved",
   "theorems": [
    "C30_header_ignored",
    "C30_recovery_header_ignored",
    "C30_trailing_zero_dropped",
    "C30_strong_unforgeability_refuted"
   ],
   "note": ""
  },
  {
   "property": "C31",
   "status": "proved",
   "theorems": [
    "C31_public_key",
    "C31_construction"
   ],
   "note": ""
  },
  {
   "property": "C32",
   "status": "proved",
   "theorems": [
    "C32_recovery_completeness"
   ],
   "note": ""
  },
  {
   "property": "C33",
   "status": "proved",
   "theorems": [
    "C33_recovery_soundness",
    "C33_recovery_iff"
   ],
   "note": ""
  },
  {
   "property": "C34",
   "status": "proved",
   "theorems": [
    "C34_epervier_completeness"
   ],
   "note": ""
  },
  {
   "property": "C35",
   "status": "proved",
   "theorems": [
    "C35_epervier_soundness",
    "C35_epervier_iff"
   ],
   "note": ""
  },
  {
   "property": "C36",
   "status": "proved",
   "theorems": [
    "C36_nonzero_key",
    "C36_zero_key",
    "C36_zero_key_accepts_garbage_refuted"
   ],
   "note": ""
  },
  {
   "property": "C37",
   "status": "proved",
   "theorems": [
    "C37_hint_malleable",
    "C37_every_signature_malleable"
   ],
   "note": ""
  },
  {
   "property": "C38",
   "status": "proved",
   "theorems": [
    "C38_karamul",
    "C38_karatsuba"
   ],
   "note": ""
  },
  {
   "property": "C39",
   "status": "proved",
   "theorems": [
    "C39_ntru_solve_equation"
   ],
   "note": ""
  },
  {
   "property": "C40",
   "status": "proved",
   "theorems": [
    "C40_reduce"
   ],
   "note": ""
  },
  {
   "property": "C41",
   "status": "proved",
   "theorems": [
    "C41_xgcd",
    "C41_ntru_solve_degree0",
    "C41_solvable_refused_refuted"
   ],
   "note": ""
  },
  {
   "property": "C42",
   "status": "proved",
   "theorems": [
    "C42_field_norm",
    "C42_galois_and_lift_coefficients",
    "C42_lift_coefficients"
   ],
   "note": ""
  },
  {
   "property": "C43",
   "status": "proved",
   "theorems": [
    "C43_ntru_gen",
    "C43_makes_secret_key"
   ],
   "note": ""
  },
  {
   "property": "C44",
   "status": "proved",
   "theorems": [
    "C44_bitsize"
   ],
   "note": ""
  },
  {
   "property": "C45",
   "status": "proved",
   "theorems": [
    "C45_table_is_half_gaussian",
    "C45_reads_nine_bytes",
    "C45_bytes_are_numbers",
    "C45_distribution"
   ],
   "note": ""
  },
  {
   "property": "C46",
   "status": "proved",
   "theorems": [
    "C46_approxexp_accurate",
    "C46_threshold_accurate",
    "C46_accepts_with_probability_exp",
    "C46_lazy_comparison",
    "C46_bytes_read",
    "C46_threshold_range",
    "C46_zero_underflows"
   ],
   "note": ""
  },
  {
   "property": "C47",
   "status": "proved",
   "theorems": [
    "C47_table_is_gaussian",
    "C47_sample_zero",
    "C47_sample_magnitude",
    "C47_sample_sign",
    "C47_mkgauss",
    "C47_poly_small"
   ],
   "note": ""
  },
  {
   "property": "C48",
   "status": "proved",
   "theorems": [
    "C48_merge_split",
    "C48_split_merge"
   ],
   "note": ""
  },
  {
   "property": "C49",
   "status": "proved",
   "theorems": [
    "C49_roundtrip",
    "C49_other_lengths",
    "C49_words_roundtrip",
    "C49_rejects",
    "C49_negative_refuted",
    "C49_swap_reverses"
   ],
   "note": ""
  },
  {
   "property": "C50",
   "status": "proved",
   "theorems": [
    "C50_ntt_multiplies",
    "C50_ntt_evaluates",
    "C50_roots",
    "C50_stateless_multiplies"
   ],
   "note": ""
  },
  {
   "property": "C51",
   "status": "proved",
   "theorems": [
    "C51_inverse_of_forward",
    "C51_forward_of_inverse",
    "C51_canonical",
    "C51_injective",
    "C51_tables_agree"
   ],
   "note": ""
  },
  {
   "property": "C52",
   "status": "proved",
   "theorems": [
    "C52_core_accepts_iff",
    "C52_every_key",
    "C52_wrong_lengths",
    "C52_documented_check_refuted"
   ],
   "note": ""
  },
  {
   "property": "C53",
   "status": "proved",
   "theorems": [
    "C53_forgery_core",
    "C53_forgery_falcon",
    "C53_forgery_ethfalcon"
   ],
   "note": ""
  },
  {
   "property": "C54",
   "status": "proved",
   "theorems": [
    "C54_honest_falcon",
    "C54_honest_ethfalcon",
    "C54_contract_reverts_iff"
   ],
   "note": ""
  },
  {
   "property": "C55",
   "status": "proved",
   "theorems": [
    "C55_range_check",
    "C55_flag_true_checks_words",
    "C55_documented_range_refuted",
    "C55_documented_flag_refuted"
   ],
   "note": ""
  },
  {
   "property": "C56",
   "status": "proved",
   "theorems": [
    "C56_accepts_iff",
    "C56_otherwise_reverts",
    "C56_agrees_with_python",
    "C56_decodes_compress",
    "C56_large_coefficient_reverts",
    "C56_minus_zero",
    "C56_reads_inside_buffer_refuted"
   ],
   "note": ""
  },
  {
   "property": "C57",
   "status": "proved",
   "theorems": [
    "C57_same_as_python",
    "C57_accepts_iff",
    "C57_decodes_modq_encode"
   ],
   "note": ""
  },
  {
   "property": "C58",
   "status": "proved",
   "theorems": [
    "C58_frame_understood",
    "C58_frame_overflow_iff",
    "C58_reconstruction",
    "C58_length_field_ignored"
   ],
   "note": ""
  },
  {
   "property": "C59",
   "status": "proved",
   "theorems": [
    "C59_recover_iff_falcon",
    "C59_recover_iff_ethfalcon",
    "C59_inverse",
    "C59_hint_check_iff",
    "C59_matches_python_epervier",
    "C59_matches_python_ethepervier"
   ],
   "note": ""
  },
  {
   "property": "C60",
   "status": "proved",
   "theorems": [
    "C60_norm_is_first_511",
    "C60_last_s1_free",
    "C60_documented_bound_refuted",
    "C60_noncanonical_s1_refuted"
   ],
   "note": ""
  },
  {
   "property": "C61",
   "status": "proved",
   "theorems": [
    "C61_update_always_works",
    "C61_make_immutable_is_noop",
    "C61_freezes_refuted",
    "C61_anyone_breaks_products"
   ],
   "note": ""
  },
  {
   "property": "C62",
   "status": "proved",
   "theorems": [
    "C62_public_key_file",
    "C62_private_key_file",
    "C62_signature_file",
    "C62_files_determine_keys",
    "C62_other_versions"
   ],
   "note": ""
  },
  {
   "property": "C63",
   "status": "proved",
   "theorems": [
    "C63_salt_is_public",
    "C63_trailing_bytes_ignored_by_salt",
    "C63_trailing_bytes_ignored",
    "C63_falcon512_hashes",
    "C63_small_key_constant_salt"
   ],
   "note": ""
  },
  {
   "property": "C64",
   "status": "proved",
   "theorems": [
    "C64_falcon_end_to_end",
    "C64_epervier_end_to_end",
    "C64_falconrec_never_verifies"
   ],
   "note": ""
  },
  {
   "property": "C65",
   "status": "proved",
   "theorems": [
    "C65_encoding_injective",
    "C65_equal_hashes_are_collisions",
    "C65_encoded_iff_in_range",
    "C65_whole_words",
    "C65_decodes"
   ],
   "note": ""
  },
  {
   "property": "C66",
   "status": "proved",
   "theorems": [
    "C66_history_is_ctr_drbg",
    "C66_constructor_refuses_iff",
    "C66_reachable_states",
    "C66_request_blocks",
    "C66_prefix",
    "C66_empty_additional_input",
    "C66_empty_is_not_null_refuted"
   ],
   "note": ""
  },
  {
   "property": "C67",
   "status": "proved",
   "theorems": [
    "C67_write_read",
    "C67_key_roundtrip",
    "C67_decoder_ignores_tail",
    "C67_deploy_polynomial",
    "C67_deploys_packed_residues"
   ],
   "note": ""
  },
  {
   "property": "C68",
   "status": "proved",
   "theorems": [
    "C68_result",
    "C68_accepts_iff",
    "C68_trailing_bytes_ignored",
    "C68_pack_parses",
    "C68_end_to_end",
    "C68_memory_exists"
   ],
   "note": ""
  },
  {
   "property": "C69",
   "status": "proved",
   "theorems": [
    "C69_secret_key_words",
    "C69_secret_key_injective",
    "C69_secret_key_aliases",
    "C69_encode_then_decode_refuted",
    "C69_nist_decode",
    "C69_nist_header",
    "C69_nist_empty",
    "C69_rsp_roundtrip",
    "C69_rsp_empty_message_lost"
   ],
   "note": ""
  },
  {
   "property": "C70",
   "status": "proved",
   "theorems": [
    "C70_core_malleable",
    "C70_verify_malleable",
    "C70_recover_malleable"
   ],
   "note": ""
  },
  {
   "property": "C71",
   "status": "proved",
   "theorems": [
    "C71_word_tables_multiply",
    "C71_deployed_entries",
    "C71_deployed_tables_multiply_refuted",
    "C71_deploy_succeeds",
    "C71_deployed_layout",
    "C71_deployed_code"
   ],
   "note": ""
  },
  {
   "property": "C72",
   "status": "proved",
   "theorems": [
    "C72_samplerz_range"
   ],
   "note": ""
  },
  {
   "property": "C73",
   "status": "proved",
   "theorems": [
    "C73_sign_tx_never_completes",
    "C73_sign_tx_type_error",
    "C73_recover_transaction_never_sent",
    "C73_recover_transaction_index_error",
    "C73_verify_transaction_command"
   ],
   "note": ""
  },
  {
   "property": "C74",
   "status": "proved",
   "theorems": [
    "C74_roots",
    "C74_fft_evaluates",
    "C74_ifft_fft",
    "C74_fft_ifft",
    "C74_mul",
    "C74_mul_integers",
    "C74_div",
    "C74_adj",
    "C74_split_merge",
    "C74_short"
   ],
   "note": ""
  },
  {
   "property": "C75",
   "status": "proved",
   "theorems": [
    "C75_key_succeeds",
    "C75_sampling_exact",
    "C75_oracle_exists",
    "C75_signatures_verify",
    "C75_recovery_verifies",
    "C75_epervier_verifies"
   ],
   "note": ""
  },
  {
   "property": "C76",
   "status": "proved",
   "theorems": [
    "C76_leaf_range",
    "C76_leaves_positive",
    "C76_gs_norm"
   ],
   "note": ""
  },
  {
   "property": "C77",
   "status": "proved",
   "theorems": [
    "C77_norm",
    "C77_norm_bound"
   ],
   "note": ""
  },
  {
   "property": "C78",
   "status": "proved",
   "theorems": [
    "C78_compress",
    "C78_hash",
    "C78_hash_short",
    "C78_words",
    "C78_injective",
    "C78_residues",
    "C78_range"
   ],
   "note": ""
  },
  {
   "property": "C79",
   "status": "proved",
   "theorems": [
    "C79_round_is_gaussian",
    "C79_acceptance",
    "C79_rejected_round_repeats",
    "C79_accepted_round_ends",
    "C79_every_leaf_of_the_signer"
   ],
   "note": ""
  },
  {
   "property": "C80",
   "status": "proved",
   "theorems": [
    "C80_multiplies",
    "C80_inverse",
    "C80_accepts_iff",
    "C80_otherwise_reverts",
    "C80_nttpub_same",
    "C80_malleable",
    "C80_salt_boundary",
    "C80_forgery"
   ],
   "note": ""
  },
  {
   "property": "C81",
   "status": "proved",
   "theorems": [
    "C81_decodes",
    "C81_accepted_on_chain_nist",
    "C81_accepted_on_chain_eth",
    "C81_complete",
    "C81_salt_reused",
    "C81_prefix_ignored",
    "C81_other_modes"
   ],
   "note": ""
  },
  {
   "property": "C82",
   "status": "proved",
   "theorems": [
    "C82_formats_agree",
    "C82_close"
   ],
   "note": ""
  },
  {
   "property": "C83",
   "status": "proved",
   "theorems": [
    "C83_decode_iff",
    "C83_encode_iff",
    "C83_encode_fails_iff",
    "C83_roundtrip",
    "C83_unique",
    "C83_python_encoding_is_padded",
    "C83_python_agrees",
    "C83_python_more",
    "C83_modq_same_as_python",
    "C83_modq16_iff"
   ],
   "note": ""
  },
  {
   "property": "C84",
   "status": "proved",
   "theorems": [
    "C84_montgomery",
    "C84_multiplies",
    "C84_inverse",
    "C84_same_transform_as_contract",
    "C84_norm_exact",
    "C84_verify_raw_iff"
   ],
   "note": ""
  },
  {
   "property": "C85",
   "status": "proved",
   "theorems": [
    "C85_open_iff",
    "C85_unique",
    "C85_no_undefined",
    "C85_short_key_refuted",
    "C85_python_accepts",
    "C85_from_python",
    "C85_sign_then_open",
    "C85_any_message_opens"
   ],
   "note": ""
  },
  {
   "property": "C86",
   "status": "proved",
   "theorems": [
    "C86_open_iff",
    "C86_no_undefined",
    "C86_encode_then_decode",
    "C86_malleable",
    "C86_same_verdict"
   ],
   "note": ""
  },
  {
   "property": "C87",
   "status": "proved",
   "theorems": [
    "C87_same_point",
    "C87_long_input_dropped",
    "C87_long_messages_interchangeable",
    "C87_forgery_for_every_long_message"
   ],
   "note": ""
  },
  {
   "property": "C88",
   "status": "proved",
   "theorems": [
    "C88_true_iff",
    "C88_panics_iff",
    "C88_overflow_reachable",
    "C88_short_key_refuted",
    "C88_safe",
    "C88_precompile",
    "C88_sign_overflow_iff",
    "C88_sign_panics_iff"
   ],
   "note": ""
  },
  {
   "property": "C89",
   "status": "proved",
   "theorems": [
    "C89_division",
    "C89_compute_public_iff",
    "C89_compute_public_as_python",
    "C89_complete_private_iff",
    "C89_recovers_basis",
    "C89_is_invertible",
    "C89_count_nttzero",
    "C89_verify_recover_iff",
    "C89_bounds",
    "C89_decode_iff",
    "C89_decode_defined",
    "C89_encode_iff",
    "C89_roundtrip",
    "C89_decode_as_python",
    "C89_keypair",
    "C89_zknox_keypair",
    "C89_equation_checked_refuted"
   ],
   "note": ""
  },
  {
   "property": "C90",
   "status": "proved",
   "theorems": [
    "C90_open_iff",
    "C90_defined",
    "C90_overread_refuted",
    "C90_hint_ignored",
    "C90_first_invertible",
    "C90_signature_format",
    "C90_sign_then_open",
    "C90_pk_iff",
    "C90_kat_key_refuses",
    "C90_kat_key_refuted"
   ],
   "note": ""
  },
  {
   "property": "C91",
   "status": "proved",
   "theorems": [
    "C91_c_float_addition_is_correctly_rounded",
    "C91_c_float_subtraction_is_correctly_rounded",
    "C91_c_float_negation_is_exact",
    "C91_c_float_multiplication_is_correctly_rounded",
    "C91_c_float_square_is_correctly_rounded",
    "C91_correct_rounding_is_unique"
   ],
   "note": ""
  },
  {
   "property": "C92",
   "status": "proved",
   "theorems": [
    "C92_c_float_division_is_correctly_rounded",
    "C92_c_float_inverse_is_correctly_rounded",
    "C92_c_float_square_root_is_correctly_rounded"
   ],
   "note": ""
  },
  {
   "property": "C93",
   "status": "proved",
   "theorems": [
    "C93_c_integer_to_float_is_correctly_rounded",
    "C93_c_integer_of_53_bits_converts_exactly",
    "C93_c_truncation",
    "C93_c_floor",
    "C93_c_floor_of_minus_zero",
    "C93_c_round_to_integer",
    "C93_c_comparison",
    "C93_c_comparison_of_zeros",
    "C93_c_halving",
    "C93_c_doubling",
    "C93_c_exact_constants",
    "C93_c_constants_for_2_63_minus_1",
    "C93_c_rounded_constants"
   ],
   "note": ""
  },
  {
   "property": "C94",
   "status": "proved",
   "theorems": [
    "C94_draws_follow_the_refills",
    "C94_same_refills_as_python",
    "C94_same_draws_as_python",
    "C94_nine_bytes_before_the_end",
    "C94_get_bytes_repeats"
   ],
   "note": ""
  },
  {
   "property": "C95",
   "status": "proved",
   "theorems": [
    "C95_c_base_sampler_is_the_python_one",
    "C95_c_comparison_is_the_python_one",
    "C95_c_acceptance",
    "C95_c_rejection_loop_is_the_python_one",
    "C95_c_sample_range",
    "C95_c_exponential_is_the_python_polynomial"
   ],
   "note": ""
  },
  {
   "property": "C96",
   "status": "proved",
   "theorems": [
    "C96_c_threshold_is_accurate",
    "C96_c_range_reduction",
    "C96_c_scale_factor_one_is_wrong"
   ],
   "note": ""
  },
  {
   "property": "C97",
   "status": "proved",
   "theorems": [
    "C97_c_round_is_gaussian",
    "C97_c_acceptance",
    "C97_c_exponent",
    "C97_c_rounds"
   ],
   "note": ""
  },
  {
   "property": "C98",
   "status": "proved",
   "theorems": [
    "C98_aes256",
    "C98_counter",
    "C98_same_bytes_as_python",
    "C98_sp800_90a"
   ],
   "note": ""
  }
 ]
}