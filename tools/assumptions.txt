@@ C01 C01_compress_roundtrip
Closed under the global context
@@ C01 C01_empty_vector_refuted
Closed under the global context
@@ C02 C02_compress_fails_iff_too_long
Closed under the global context
@@ C02 C02_compress_length
Closed under the global context
@@ C02 C02_cost_is_spec_length
Closed under the global context
@@ C03 C03_decompress_accepts_iff
Closed under the global context
@@ C03 C03_spec_encoding_unique
Closed under the global context
@@ C04 C04_decompress_raises_iff
Closed under the global context
@@ C04 C04_decompress_total_refuted
Closed under the global context
@@ C05 C05_encoding_malleable
Closed under the global context
@@ C05 C05_canonical_iff_zero_padding
Closed under the global context
@@ C06 C06_modq_encode_ok
Closed under the global context
@@ C06 C06_modq_roundtrip
Closed under the global context
@@ C07 C07_modq_canonical
Closed under the global context
@@ C07 C07_modq_accepts_iff
Closed under the global context
@@ C07 C07_modq_decode_refusal
Closed under the global context
@@ C08 C08_modq_encode_refuses_iff
Closed under the global context
@@ C09 C09_trim_encode_ok
Closed under the global context
@@ C09 C09_trim_roundtrip
Closed under the global context
@@ C09 C09_trim_encode_refuses_iff
Closed under the global context
@@ C10 C10_trim_canonical
Closed under the global context
@@ C10 C10_trim_decode_refusal
Closed under the global context
@@ C11 C11_from_bytes_roundtrip
Closed under the global context
@@ C11 C11_from_bytes_accepts_iff
Closed under the global context
@@ C11 C11_897_bytes_determined
Closed under the global context
@@ C11 C11_from_bytes_refusal
Closed under the global context
@@ C12 C12_no_1024_key
Closed under the global context
@@ C12 C12_trailing_bytes_accepted
Closed under the global context
@@ C13 C13_complete_private
Closed under the global context
@@ C13 C13_recovers_basis
Closed under the global context
@@ C13 C13_out_of_range_refuted
Closed under the global context
@@ C14 C14_absorb_concat
Closed under the global context
@@ C14 C14_refused_update_no_effect
Closed under the global context
@@ C14 C14_overflow_refused_iff
Closed under the global context
@@ C15 C15_prng_refines_stream
Closed under the global context
@@ C15 C15_reads_are_consecutive_slices
Closed under the global context
@@ C15 C15_slice_length
Closed under the global context
@@ C15 C15_read_sizes_irrelevant
Closed under the global context
@@ C15 C15_exhaustion
Closed under the global context
@@ C16 C16_phase_discipline
Closed under the global context
@@ C17 C17_blake2s_refines_stream
Closed under the global context
@@ C17 C17_blake2s_reads
Closed under the global context
@@ C18 C18_shake_reads_are_the_sponge_output
Closed under the global context
@@ C18 C18_solidity_shake_is_the_sponge_output
Closed under the global context
@@ C19 C19_F1600_is_fips202
Closed under the global context
@@ C19 C19_solidity_f1600_equals_python
Closed under the global context
@@ C20 C20_reads_are_chain_words
Closed under the global context
@@ C20 C20_update_after_read_refused
Closed under the global context
@@ C20 C20_other_sizes_refuted
Closed under the global context
@@ C21 C21_update_is_rfc8439_block
Closed under the global context
@@ C21 C21_requests_are_refill_slices
Closed under the global context
@@ C21 C21_request_lengths
Closed under the global context
@@ C22 C22_keccak_prng_filter
Closed under the global context
@@ C22 C22_blake2s_prng_filter
Closed under the global context
@@ C22 C22_shake_filter
Closed under the global context
@@ C22 C22_keccaxof_filter
Closed under the global context
@@ C22 C22_range_and_length
Closed under the global context
@@ C22 C22_first_accepted_unique
Closed under the global context
@@ C22 C22_keccak_prng_overflow
Closed under the global context
@@ C22 C22_blake2s_prng_overflow
Closed under the global context
@@ C23 C23_five_preimages
Closed under the global context
@@ C23 C23_rejected_words
Closed under the global context
@@ C24 C24_evm_equals_python
Closed under the global context
@@ C24 C24_python_equals_evm
Closed under the global context
@@ C25 C25_nist_equals_python
Closed under the global context
@@ C26 C26_tetration_is_keccaxof_swapped
Closed under the global context
@@ C26 C26_same_order_refuted
Closed under the global context
@@ C27 C27_falcon_completeness
Closed under the global context
@@ C28 C28_verify_outcome
Closed under the global context
@@ C28 C28_verify_accepts_iff
Closed under the global context
@@ C28 C28_verdict_stable
Closed under the global context
@@ C29 C29_parameters
Closed under the global context
@@ C29 C29_signature_format
Closed under the global context
@@ C30 C30_header_ignored
Closed under the global context
@@ C30 C30_recovery_header_ignored
Closed under the global context
@@ C30 C30_trailing_zero_dropped
Closed under the global context
@@ C30 C30_strong_unforgeability_refuted
Closed under the global context
@@ C31 C31_public_key
Closed under the global context
@@ C31 C31_construction
Closed under the global context
@@ C32 C32_recovery_completeness
Closed under the global context
@@ C33 C33_recovery_soundness
Closed under the global context
@@ C33 C33_recovery_iff
Closed under the global context
@@ C34 C34_epervier_completeness
Closed under the global context
@@ C35 C35_epervier_soundness
Closed under the global context
@@ C35 C35_epervier_iff
Closed under the global context
@@ C36 C36_nonzero_key
Closed under the global context
@@ C36 C36_zero_key
Closed under the global context
@@ C36 C36_zero_key_accepts_garbage_refuted
Closed under the global context
@@ C37 C37_hint_malleable
Closed under the global context
@@ C37 C37_every_signature_malleable
Closed under the global context
@@ C38 C38_karamul
Closed under the global context
@@ C38 C38_karatsuba
Closed under the global context
@@ C39 C39_ntru_solve_equation
Closed under the global context
@@ C40 C40_reduce
Closed under the global context
@@ C41 C41_xgcd
Closed under the global context
@@ C41 C41_ntru_solve_degree0
Closed under the global context
@@ C41 C41_solvable_refused_refuted
Closed under the global context
@@ C42 C42_field_norm
Closed under the global context
@@ C42 C42_galois_and_lift_coefficients
Closed under the global context
@@ C42 C42_lift_coefficients
Closed under the global context
@@ C43 C43_ntru_gen
Closed under the global context
@@ C43 C43_makes_secret_key
Closed under the global context
@@ C44 C44_bitsize
Closed under the global context
@@ C45 C45_table_is_half_gaussian
Axioms:
ClassicalDedekindReals.sig_not_dec : forall P : Prop, {~ ~ P} + {~ P}
ClassicalDedekindReals.sig_forall_dec
  : forall P : nat -> Prop,
    (forall n : nat, {P n} + {~ P n}) ->
    {n : nat | ~ P n} + {forall n : nat, P n}
FunctionalExtensionality.functional_extensionality_dep
  : forall (A : Type) (B : A -> Type) (f g : forall x : A, B x),
    (forall x : A, f x = g x) -> f = g
Classical_Prop.classic : forall P : Prop, P \/ ~ P
@@ C45 C45_reads_nine_bytes
Closed under the global context
@@ C45 C45_bytes_are_numbers
Closed under the global context
@@ C45 C45_distribution
Closed under the global context
@@ C46 C46_approxexp_accurate
Axioms:
ClassicalDedekindReals.sig_not_dec : forall P : Prop, {~ ~ P} + {~ P}
ClassicalDedekindReals.sig_forall_dec
  : forall P : nat -> Prop,
    (forall n : nat, {P n} + {~ P n}) ->
    {n : nat | ~ P n} + {forall n : nat, P n}
FunctionalExtensionality.functional_extensionality_dep
  : forall (A : Type) (B : A -> Type) (f g : forall x : A, B x),
    (forall x : A, f x = g x) -> f = g
Classical_Prop.classic : forall P : Prop, P \/ ~ P
@@ C46 C46_threshold_accurate
Axioms:
ClassicalDedekindReals.sig_not_dec : forall P : Prop, {~ ~ P} + {~ P}
ClassicalDedekindReals.sig_forall_dec
  : forall P : nat -> Prop,
    (forall n : nat, {P n} + {~ P n}) ->
    {n : nat | ~ P n} + {forall n : nat, P n}
FunctionalExtensionality.functional_extensionality_dep
  : forall (A : Type) (B : A -> Type) (f g : forall x : A, B x),
    (forall x : A, f x = g x) -> f = g
Classical_Prop.classic : forall P : Prop, P \/ ~ P
@@ C46 C46_accepts_with_probability_exp
Axioms:
ClassicalDedekindReals.sig_not_dec : forall P : Prop, {~ ~ P} + {~ P}
ClassicalDedekindReals.sig_forall_dec
  : forall P : nat -> Prop,
    (forall n : nat, {P n} + {~ P n}) ->
    {n : nat | ~ P n} + {forall n : nat, P n}
FunctionalExtensionality.functional_extensionality_dep
  : forall (A : Type) (B : A -> Type) (f g : forall x : A, B x),
    (forall x : A, f x = g x) -> f = g
Classical_Prop.classic : forall P : Prop, P \/ ~ P
@@ C46 C46_lazy_comparison
Closed under the global context
@@ C46 C46_bytes_read
Closed under the global context
@@ C46 C46_threshold_range
Closed under the global context
@@ C46 C46_zero_underflows
Closed under the global context
@@ C47 C47_table_is_gaussian
Axioms:
ClassicalDedekindReals.sig_not_dec : forall P : Prop, {~ ~ P} + {~ P}
ClassicalDedekindReals.sig_forall_dec
  : forall P : nat -> Prop,
    (forall n : nat, {P n} + {~ P n}) ->
    {n : nat | ~ P n} + {forall n : nat, P n}
FunctionalExtensionality.functional_extensionality_dep
  : forall (A : Type) (B : A -> Type) (f g : forall x : A, B x),
    (forall x : A, f x = g x) -> f = g
Classical_Prop.classic : forall P : Prop, P \/ ~ P
@@ C47 C47_sample_zero
Closed under the global context
@@ C47 C47_sample_magnitude
Closed under the global context
@@ C47 C47_sample_sign
Closed under the global context
@@ C47 C47_mkgauss
Closed under the global context
@@ C47 C47_poly_small
Closed under the global context
@@ C48 C48_merge_split
Closed under the global context
@@ C48 C48_split_merge
Closed under the global context
@@ C49 C49_roundtrip
Closed under the global context
@@ C49 C49_other_lengths
Closed under the global context
@@ C49 C49_words_roundtrip
Closed under the global context
@@ C49 C49_rejects
Closed under the global context
@@ C49 C49_negative_refuted
Closed under the global context
@@ C49 C49_swap_reverses
Closed under the global context
@@ C50 C50_ntt_multiplies
Closed under the global context
@@ C50 C50_ntt_evaluates
Closed under the global context
@@ C50 C50_roots
Closed under the global context
@@ C50 C50_stateless_multiplies
Closed under the global context
@@ C51 C51_inverse_of_forward
Closed under the global context
@@ C51 C51_forward_of_inverse
Closed under the global context
@@ C51 C51_canonical
Closed under the global context
@@ C51 C51_injective
Closed under the global context
@@ C51 C51_tables_agree
Closed under the global context
@@ C52 C52_core_accepts_iff
Closed under the global context
@@ C52 C52_every_key
Closed under the global context
@@ C52 C52_wrong_lengths
Closed under the global context
@@ C52 C52_documented_check_refuted
Closed under the global context
@@ C53 C53_forgery_core
Closed under the global context
@@ C53 C53_forgery_falcon
Closed under the global context
@@ C53 C53_forgery_ethfalcon
Closed under the global context
@@ C54 C54_honest_falcon
Closed under the global context
@@ C54 C54_honest_ethfalcon
Closed under the global context
@@ C54 C54_contract_reverts_iff
Closed under the global context
@@ C55 C55_range_check
Closed under the global context
@@ C55 C55_flag_true_checks_words
Closed under the global context
@@ C55 C55_documented_range_refuted
Closed under the global context
@@ C55 C55_documented_flag_refuted
Closed under the global context
@@ C56 C56_accepts_iff
Closed under the global context
@@ C56 C56_otherwise_reverts
Closed under the global context
@@ C56 C56_agrees_with_python
Closed under the global context
@@ C56 C56_decodes_compress
Closed under the global context
@@ C56 C56_large_coefficient_reverts
Closed under the global context
@@ C56 C56_minus_zero
Closed under the global context
@@ C56 C56_reads_inside_buffer_refuted
Closed under the global context
@@ C57 C57_same_as_python
Closed under the global context
@@ C57 C57_accepts_iff
Closed under the global context
@@ C57 C57_decodes_modq_encode
Closed under the global context
@@ C58 C58_frame_understood
Closed under the global context
@@ C58 C58_frame_overflow_iff
Closed under the global context
@@ C58 C58_reconstruction
Closed under the global context
@@ C58 C58_length_field_ignored
Closed under the global context
@@ C59 C59_recover_iff_falcon
Closed under the global context
@@ C59 C59_recover_iff_ethfalcon
Closed under the global context
@@ C59 C59_inverse
Closed under the global context
@@ C59 C59_hint_check_iff
Closed under the global context
@@ C59 C59_matches_python_epervier
Closed under the global context
@@ C59 C59_matches_python_ethepervier
Closed under the global context
@@ C60 C60_norm_is_first_511
Closed under the global context
@@ C60 C60_last_s1_free
Closed under the global context
@@ C60 C60_documented_bound_refuted
Closed under the global context
@@ C60 C60_noncanonical_s1_refuted
Closed under the global context
@@ C61 C61_update_always_works
Closed under the global context
@@ C61 C61_make_immutable_is_noop
Closed under the global context
@@ C61 C61_freezes_refuted
Closed under the global context
@@ C61 C61_anyone_breaks_products
Closed under the global context
@@ C62 C62_public_key_file
Closed under the global context
@@ C62 C62_private_key_file
Closed under the global context
@@ C62 C62_signature_file
Closed under the global context
@@ C62 C62_files_determine_keys
Closed under the global context
@@ C62 C62_other_versions
Closed under the global context
@@ C63 C63_salt_is_public
Closed under the global context
@@ C63 C63_trailing_bytes_ignored_by_salt
Closed under the global context
@@ C63 C63_trailing_bytes_ignored
Closed under the global context
@@ C63 C63_falcon512_hashes
Closed under the global context
@@ C63 C63_small_key_constant_salt
Closed under the global context
@@ C64 C64_falcon_end_to_end
Closed under the global context
@@ C64 C64_epervier_end_to_end
Closed under the global context
@@ C64 C64_falconrec_never_verifies
Closed under the global context
@@ C65 C65_encoding_injective
Closed under the global context
@@ C65 C65_equal_hashes_are_collisions
Closed under the global context
@@ C65 C65_encoded_iff_in_range
Closed under the global context
@@ C65 C65_whole_words
Closed under the global context
@@ C65 C65_decodes
Closed under the global context
@@ C66 C66_history_is_ctr_drbg
Closed under the global context
@@ C66 C66_constructor_refuses_iff
Closed under the global context
@@ C66 C66_reachable_states
Closed under the global context
@@ C66 C66_request_blocks
Closed under the global context
@@ C66 C66_prefix
Closed under the global context
@@ C66 C66_empty_additional_input
Closed under the global context
@@ C66 C66_empty_is_not_null_refuted
Closed under the global context
@@ C67 C67_write_read
Closed under the global context
@@ C67 C67_key_roundtrip
Closed under the global context
@@ C67 C67_decoder_ignores_tail
Closed under the global context
@@ C67 C67_deploy_polynomial
Closed under the global context
@@ C67 C67_deploys_packed_residues
Closed under the global context
@@ C68 C68_result
Closed under the global context
@@ C68 C68_accepts_iff
Closed under the global context
@@ C68 C68_trailing_bytes_ignored
Closed under the global context
@@ C68 C68_pack_parses
Closed under the global context
@@ C68 C68_end_to_end
Closed under the global context
@@ C68 C68_memory_exists
Closed under the global context
@@ C69 C69_secret_key_words
Closed under the global context
@@ C69 C69_secret_key_injective
Closed under the global context
@@ C69 C69_secret_key_aliases
Closed under the global context
@@ C69 C69_encode_then_decode_refuted
Closed under the global context
@@ C69 C69_nist_decode
Closed under the global context
@@ C69 C69_nist_header
Closed under the global context
@@ C69 C69_nist_empty
Closed under the global context
@@ C69 C69_rsp_roundtrip
Closed under the global context
@@ C69 C69_rsp_empty_message_lost
Closed under the global context
@@ C70 C70_core_malleable
Closed under the global context
@@ C70 C70_verify_malleable
Closed under the global context
@@ C70 C70_recover_malleable
Closed under the global context
@@ C71 C71_word_tables_multiply
Closed under the global context
@@ C71 C71_deployed_entries
Closed under the global context
@@ C71 C71_deployed_tables_multiply_refuted
Closed under the global context
@@ C71 C71_deploy_succeeds
Closed under the global context
@@ C71 C71_deployed_layout
Closed under the global context
@@ C71 C71_deployed_code
Closed under the global context
@@ C72 C72_samplerz_range
Closed under the global context
@@ C73 C73_sign_tx_never_completes
Closed under the global context
@@ C73 C73_sign_tx_type_error
Closed under the global context
@@ C73 C73_recover_transaction_never_sent
Closed under the global context
@@ C73 C73_recover_transaction_index_error
Closed under the global context
@@ C73 C73_verify_transaction_command
Closed under the global context
@@ C74 C74_roots
Axioms:
ClassicalDedekindReals.sig_not_dec : forall P : Prop, {~ ~ P} + {~ P}
ClassicalDedekindReals.sig_forall_dec
  : forall P : nat -> Prop,
    (forall n : nat, {P n} + {~ P n}) ->
    {n : nat | ~ P n} + {forall n : nat, P n}
FunctionalExtensionality.functional_extensionality_dep
  : forall (A : Type) (B : A -> Type) (f g : forall x : A, B x),
    (forall x : A, f x = g x) -> f = g
@@ C74 C74_fft_evaluates
Axioms:
ClassicalDedekindReals.sig_not_dec : forall P : Prop, {~ ~ P} + {~ P}
ClassicalDedekindReals.sig_forall_dec
  : forall P : nat -> Prop,
    (forall n : nat, {P n} + {~ P n}) ->
    {n : nat | ~ P n} + {forall n : nat, P n}
FunctionalExtensionality.functional_extensionality_dep
  : forall (A : Type) (B : A -> Type) (f g : forall x : A, B x),
    (forall x : A, f x = g x) -> f = g
@@ C74 C74_ifft_fft
Axioms:
ClassicalDedekindReals.sig_not_dec : forall P : Prop, {~ ~ P} + {~ P}
ClassicalDedekindReals.sig_forall_dec
  : forall P : nat -> Prop,
    (forall n : nat, {P n} + {~ P n}) ->
    {n : nat | ~ P n} + {forall n : nat, P n}
FunctionalExtensionality.functional_extensionality_dep
  : forall (A : Type) (B : A -> Type) (f g : forall x : A, B x),
    (forall x : A, f x = g x) -> f = g
@@ C74 C74_fft_ifft
Axioms:
ClassicalDedekindReals.sig_not_dec : forall P : Prop, {~ ~ P} + {~ P}
ClassicalDedekindReals.sig_forall_dec
  : forall P : nat -> Prop,
    (forall n : nat, {P n} + {~ P n}) ->
    {n : nat | ~ P n} + {forall n : nat, P n}
FunctionalExtensionality.functional_extensionality_dep
  : forall (A : Type) (B : A -> Type) (f g : forall x : A, B x),
    (forall x : A, f x = g x) -> f = g
@@ C74 C74_mul
Axioms:
ClassicalDedekindReals.sig_not_dec : forall P : Prop, {~ ~ P} + {~ P}
ClassicalDedekindReals.sig_forall_dec
  : forall P : nat -> Prop,
    (forall n : nat, {P n} + {~ P n}) ->
    {n : nat | ~ P n} + {forall n : nat, P n}
FunctionalExtensionality.functional_extensionality_dep
  : forall (A : Type) (B : A -> Type) (f g : forall x : A, B x),
    (forall x : A, f x = g x) -> f = g
@@ C74 C74_mul_integers
Axioms:
ClassicalDedekindReals.sig_not_dec : forall P : Prop, {~ ~ P} + {~ P}
ClassicalDedekindReals.sig_forall_dec
  : forall P : nat -> Prop,
    (forall n : nat, {P n} + {~ P n}) ->
    {n : nat | ~ P n} + {forall n : nat, P n}
FunctionalExtensionality.functional_extensionality_dep
  : forall (A : Type) (B : A -> Type) (f g : forall x : A, B x),
    (forall x : A, f x = g x) -> f = g
@@ C74 C74_div
Axioms:
ClassicalDedekindReals.sig_not_dec : forall P : Prop, {~ ~ P} + {~ P}
ClassicalDedekindReals.sig_forall_dec
  : forall P : nat -> Prop,
    (forall n : nat, {P n} + {~ P n}) ->
    {n : nat | ~ P n} + {forall n : nat, P n}
FunctionalExtensionality.functional_extensionality_dep
  : forall (A : Type) (B : A -> Type) (f g : forall x : A, B x),
    (forall x : A, f x = g x) -> f = g
@@ C74 C74_adj
Axioms:
ClassicalDedekindReals.sig_not_dec : forall P : Prop, {~ ~ P} + {~ P}
ClassicalDedekindReals.sig_forall_dec
  : forall P : nat -> Prop,
    (forall n : nat, {P n} + {~ P n}) ->
    {n : nat | ~ P n} + {forall n : nat, P n}
FunctionalExtensionality.functional_extensionality_dep
  : forall (A : Type) (B : A -> Type) (f g : forall x : A, B x),
    (forall x : A, f x = g x) -> f = g
@@ C74 C74_split_merge
Axioms:
ClassicalDedekindReals.sig_not_dec : forall P : Prop, {~ ~ P} + {~ P}
ClassicalDedekindReals.sig_forall_dec
  : forall P : nat -> Prop,
    (forall n : nat, {P n} + {~ P n}) ->
    {n : nat | ~ P n} + {forall n : nat, P n}
FunctionalExtensionality.functional_extensionality_dep
  : forall (A : Type) (B : A -> Type) (f g : forall x : A, B x),
    (forall x : A, f x = g x) -> f = g
@@ C74 C74_short
Axioms:
ClassicalDedekindReals.sig_not_dec : forall P : Prop, {~ ~ P} + {~ P}
ClassicalDedekindReals.sig_forall_dec
  : forall P : nat -> Prop,
    (forall n : nat, {P n} + {~ P n}) ->
    {n : nat | ~ P n} + {forall n : nat, P n}
FunctionalExtensionality.functional_extensionality_dep
  : forall (A : Type) (B : A -> Type) (f g : forall x : A, B x),
    (forall x : A, f x = g x) -> f = g
@@ C75 C75_key_succeeds
Axioms:
ClassicalDedekindReals.sig_not_dec : forall P : Prop, {~ ~ P} + {~ P}
ClassicalDedekindReals.sig_forall_dec
  : forall P : nat -> Prop,
    (forall n : nat, {P n} + {~ P n}) ->
    {n : nat | ~ P n} + {forall n : nat, P n}
FunctionalExtensionality.functional_extensionality_dep
  : forall (A : Type) (B : A -> Type) (f g : forall x : A, B x),
    (forall x : A, f x = g x) -> f = g
@@ C75 C75_sampling_exact
Axioms:
ClassicalDedekindReals.sig_not_dec : forall P : Prop, {~ ~ P} + {~ P}
ClassicalDedekindReals.sig_forall_dec
  : forall P : nat -> Prop,
    (forall n : nat, {P n} + {~ P n}) ->
    {n : nat | ~ P n} + {forall n : nat, P n}
FunctionalExtensionality.functional_extensionality_dep
  : forall (A : Type) (B : A -> Type) (f g : forall x : A, B x),
    (forall x : A, f x = g x) -> f = g
@@ C75 C75_oracle_exists
Axioms:
ClassicalDedekindReals.sig_not_dec : forall P : Prop, {~ ~ P} + {~ P}
ClassicalDedekindReals.sig_forall_dec
  : forall P : nat -> Prop,
    (forall n : nat, {P n} + {~ P n}) ->
    {n : nat | ~ P n} + {forall n : nat, P n}
FunctionalExtensionality.functional_extensionality_dep
  : forall (A : Type) (B : A -> Type) (f g : forall x : A, B x),
    (forall x : A, f x = g x) -> f = g
@@ C75 C75_signatures_verify
Axioms:
ClassicalDedekindReals.sig_not_dec : forall P : Prop, {~ ~ P} + {~ P}
ClassicalDedekindReals.sig_forall_dec
  : forall P : nat -> Prop,
    (forall n : nat, {P n} + {~ P n}) ->
    {n : nat | ~ P n} + {forall n : nat, P n}
FunctionalExtensionality.functional_extensionality_dep
  : forall (A : Type) (B : A -> Type) (f g : forall x : A, B x),
    (forall x : A, f x = g x) -> f = g
@@ C75 C75_recovery_verifies
Axioms:
ClassicalDedekindReals.sig_not_dec : forall P : Prop, {~ ~ P} + {~ P}
ClassicalDedekindReals.sig_forall_dec
  : forall P : nat -> Prop,
    (forall n : nat, {P n} + {~ P n}) ->
    {n : nat | ~ P n} + {forall n : nat, P n}
FunctionalExtensionality.functional_extensionality_dep
  : forall (A : Type) (B : A -> Type) (f g : forall x : A, B x),
    (forall x : A, f x = g x) -> f = g
@@ C75 C75_epervier_verifies
Axioms:
ClassicalDedekindReals.sig_not_dec : forall P : Prop, {~ ~ P} + {~ P}
ClassicalDedekindReals.sig_forall_dec
  : forall P : nat -> Prop,
    (forall n : nat, {P n} + {~ P n}) ->
    {n : nat | ~ P n} + {forall n : nat, P n}
FunctionalExtensionality.functional_extensionality_dep
  : forall (A : Type) (B : A -> Type) (f g : forall x : A, B x),
    (forall x : A, f x = g x) -> f = g
@@ C76 C76_leaf_range
Axioms:
ClassicalDedekindReals.sig_not_dec : forall P : Prop, {~ ~ P} + {~ P}
ClassicalDedekindReals.sig_forall_dec
  : forall P : nat -> Prop,
    (forall n : nat, {P n} + {~ P n}) ->
    {n : nat | ~ P n} + {forall n : nat, P n}
FunctionalExtensionality.functional_extensionality_dep
  : forall (A : Type) (B : A -> Type) (f g : forall x : A, B x),
    (forall x : A, f x = g x) -> f = g
@@ C76 C76_leaves_positive
Axioms:
ClassicalDedekindReals.sig_not_dec : forall P : Prop, {~ ~ P} + {~ P}
ClassicalDedekindReals.sig_forall_dec
  : forall P : nat -> Prop,
    (forall n : nat, {P n} + {~ P n}) ->
    {n : nat | ~ P n} + {forall n : nat, P n}
FunctionalExtensionality.functional_extensionality_dep
  : forall (A : Type) (B : A -> Type) (f g : forall x : A, B x),
    (forall x : A, f x = g x) -> f = g
@@ C76 C76_gs_norm
Axioms:
ClassicalDedekindReals.sig_not_dec : forall P : Prop, {~ ~ P} + {~ P}
ClassicalDedekindReals.sig_forall_dec
  : forall P : nat -> Prop,
    (forall n : nat, {P n} + {~ P n}) ->
    {n : nat | ~ P n} + {forall n : nat, P n}
FunctionalExtensionality.functional_extensionality_dep
  : forall (A : Type) (B : A -> Type) (f g : forall x : A, B x),
    (forall x : A, f x = g x) -> f = g
@@ C77 C77_norm
Axioms:
ClassicalDedekindReals.sig_not_dec : forall P : Prop, {~ ~ P} + {~ P}
ClassicalDedekindReals.sig_forall_dec
  : forall P : nat -> Prop,
    (forall n : nat, {P n} + {~ P n}) ->
    {n : nat | ~ P n} + {forall n : nat, P n}
FunctionalExtensionality.functional_extensionality_dep
  : forall (A : Type) (B : A -> Type) (f g : forall x : A, B x),
    (forall x : A, f x = g x) -> f = g
@@ C77 C77_norm_bound
Axioms:
ClassicalDedekindReals.sig_not_dec : forall P : Prop, {~ ~ P} + {~ P}
ClassicalDedekindReals.sig_forall_dec
  : forall P : nat -> Prop,
    (forall n : nat, {P n} + {~ P n}) ->
    {n : nat | ~ P n} + {forall n : nat, P n}
FunctionalExtensionality.functional_extensionality_dep
  : forall (A : Type) (B : A -> Type) (f g : forall x : A, B x),
    (forall x : A, f x = g x) -> f = g
@@ C78 C78_compress
Closed under the global context
@@ C78 C78_hash
Closed under the global context
@@ C78 C78_hash_short
Closed under the global context
@@ C78 C78_words
Closed under the global context
@@ C78 C78_injective
Closed under the global context
@@ C78 C78_residues
Closed under the global context
@@ C78 C78_range
Closed under the global context
@@ C79 C79_round_is_gaussian
Axioms:
ClassicalDedekindReals.sig_not_dec : forall P : Prop, {~ ~ P} + {~ P}
ClassicalDedekindReals.sig_forall_dec
  : forall P : nat -> Prop,
    (forall n : nat, {P n} + {~ P n}) ->
    {n : nat | ~ P n} + {forall n : nat, P n}
FunctionalExtensionality.functional_extensionality_dep
  : forall (A : Type) (B : A -> Type) (f g : forall x : A, B x),
    (forall x : A, f x = g x) -> f = g
Classical_Prop.classic : forall P : Prop, P \/ ~ P
@@ C79 C79_acceptance
Axioms:
ClassicalDedekindReals.sig_not_dec : forall P : Prop, {~ ~ P} + {~ P}
ClassicalDedekindReals.sig_forall_dec
  : forall P : nat -> Prop,
    (forall n : nat, {P n} + {~ P n}) ->
    {n : nat | ~ P n} + {forall n : nat, P n}
FunctionalExtensionality.functional_extensionality_dep
  : forall (A : Type) (B : A -> Type) (f g : forall x : A, B x),
    (forall x : A, f x = g x) -> f = g
Classical_Prop.classic : forall P : Prop, P \/ ~ P
@@ C79 C79_rejected_round_repeats
Axioms:
ClassicalDedekindReals.sig_forall_dec
  : forall P : nat -> Prop,
    (forall n : nat, {P n} + {~ P n}) ->
    {n : nat | ~ P n} + {forall n : nat, P n}
FunctionalExtensionality.functional_extensionality_dep
  : forall (A : Type) (B : A -> Type) (f g : forall x : A, B x),
    (forall x : A, f x = g x) -> f = g
@@ C79 C79_accepted_round_ends
Axioms:
ClassicalDedekindReals.sig_forall_dec
  : forall P : nat -> Prop,
    (forall n : nat, {P n} + {~ P n}) ->
    {n : nat | ~ P n} + {forall n : nat, P n}
FunctionalExtensionality.functional_extensionality_dep
  : forall (A : Type) (B : A -> Type) (f g : forall x : A, B x),
    (forall x : A, f x = g x) -> f = g
@@ C79 C79_every_leaf_of_the_signer
Axioms:
ClassicalDedekindReals.sig_not_dec : forall P : Prop, {~ ~ P} + {~ P}
ClassicalDedekindReals.sig_forall_dec
  : forall P : nat -> Prop,
    (forall n : nat, {P n} + {~ P n}) ->
    {n : nat | ~ P n} + {forall n : nat, P n}
FunctionalExtensionality.functional_extensionality_dep
  : forall (A : Type) (B : A -> Type) (f g : forall x : A, B x),
    (forall x : A, f x = g x) -> f = g
Classical_Prop.classic : forall P : Prop, P \/ ~ P
@@ C80 C80_multiplies
Closed under the global context
@@ C80 C80_inverse
Closed under the global context
@@ C80 C80_accepts_iff
Closed under the global context
@@ C80 C80_otherwise_reverts
Closed under the global context
@@ C80 C80_nttpub_same
Closed under the global context
@@ C80 C80_malleable
Closed under the global context
@@ C80 C80_salt_boundary
Closed under the global context
@@ C80 C80_forgery
Closed under the global context
@@ C81 C81_decodes
Closed under the global context
@@ C81 C81_accepted_on_chain_nist
Closed under the global context
@@ C81 C81_accepted_on_chain_eth
Closed under the global context
@@ C81 C81_complete
Closed under the global context
@@ C81 C81_salt_reused
Closed under the global context
@@ C81 C81_prefix_ignored
Closed under the global context
@@ C81 C81_other_modes
Closed under the global context
@@ C82 C82_formats_agree
Axioms:
ClassicalDedekindReals.sig_not_dec : forall P : Prop, {~ ~ P} + {~ P}
ClassicalDedekindReals.sig_forall_dec
  : forall P : nat -> Prop,
    (forall n : nat, {P n} + {~ P n}) ->
    {n : nat | ~ P n} + {forall n : nat, P n}
FunctionalExtensionality.functional_extensionality_dep
  : forall (A : Type) (B : A -> Type) (f g : forall x : A, B x),
    (forall x : A, f x = g x) -> f = g
@@ C82 C82_close
Axioms:
ClassicalDedekindReals.sig_not_dec : forall P : Prop, {~ ~ P} + {~ P}
ClassicalDedekindReals.sig_forall_dec
  : forall P : nat -> Prop,
    (forall n : nat, {P n} + {~ P n}) ->
    {n : nat | ~ P n} + {forall n : nat, P n}
FunctionalExtensionality.functional_extensionality_dep
  : forall (A : Type) (B : A -> Type) (f g : forall x : A, B x),
    (forall x : A, f x = g x) -> f = g
@@ C83 C83_decode_iff
Closed under the global context
@@ C83 C83_encode_iff
Closed under the global context
@@ C83 C83_encode_fails_iff
Closed under the global context
@@ C83 C83_roundtrip
Closed under the global context
@@ C83 C83_unique
Closed under the global context
@@ C83 C83_python_encoding_is_padded
Closed under the global context
@@ C83 C83_python_agrees
Closed under the global context
@@ C83 C83_python_more
Closed under the global context
@@ C83 C83_modq_same_as_python
Closed under the global context
@@ C83 C83_modq16_iff
Closed under the global context
@@ C84 C84_montgomery
Closed under the global context
@@ C84 C84_multiplies
Closed under the global context
@@ C84 C84_inverse
Closed under the global context
@@ C84 C84_same_transform_as_contract
Closed under the global context
@@ C84 C84_norm_exact
Closed under the global context
@@ C84 C84_verify_raw_iff
Closed under the global context
@@ C85 C85_open_iff
Closed under the global context
@@ C85 C85_unique
Closed under the global context
@@ C85 C85_no_undefined
Closed under the global context
@@ C85 C85_short_key_refuted
Closed under the global context
@@ C85 C85_python_accepts
Closed under the global context
@@ C85 C85_from_python
Closed under the global context
@@ C85 C85_sign_then_open
Closed under the global context
@@ C85 C85_any_message_opens
Closed under the global context
@@ C86 C86_open_iff
Closed under the global context
@@ C86 C86_no_undefined
Closed under the global context
@@ C86 C86_encode_then_decode
Closed under the global context
@@ C86 C86_malleable
Closed under the global context
@@ C86 C86_same_verdict
Closed under the global context
@@ C87 C87_same_point
Closed under the global context
@@ C87 C87_long_input_dropped
Closed under the global context
@@ C87 C87_long_messages_interchangeable
Closed under the global context
@@ C87 C87_forgery_for_every_long_message
Closed under the global context
@@ C88 C88_true_iff
Closed under the global context
@@ C88 C88_panics_iff
Closed under the global context
@@ C88 C88_overflow_reachable
Closed under the global context
@@ C88 C88_short_key_refuted
Closed under the global context
@@ C88 C88_safe
Closed under the global context
@@ C88 C88_precompile
Closed under the global context
@@ C88 C88_sign_overflow_iff
Closed under the global context
@@ C88 C88_sign_panics_iff
Closed under the global context
@@ C89 C89_division
Closed under the global context
@@ C89 C89_compute_public_iff
Closed under the global context
@@ C89 C89_compute_public_as_python
Closed under the global context
@@ C89 C89_complete_private_iff
Closed under the global context
@@ C89 C89_recovers_basis
Closed under the global context
@@ C89 C89_is_invertible
Closed under the global context
@@ C89 C89_count_nttzero
Closed under the global context
@@ C89 C89_verify_recover_iff
Closed under the global context
@@ C89 C89_bounds
Closed under the global context
@@ C89 C89_decode_iff
Closed under the global context
@@ C89 C89_decode_defined
Closed under the global context
@@ C89 C89_encode_iff
Closed under the global context
@@ C89 C89_roundtrip
Closed under the global context
@@ C89 C89_decode_as_python
Closed under the global context
@@ C89 C89_keypair
Closed under the global context
@@ C89 C89_zknox_keypair
Closed under the global context
@@ C89 C89_equation_checked_refuted
Closed under the global context
@@ C90 C90_open_iff
Closed under the global context
@@ C90 C90_defined
Closed under the global context
@@ C90 C90_overread_refuted
Closed under the global context
@@ C90 C90_hint_ignored
Closed under the global context
@@ C90 C90_first_invertible
Closed under the global context
@@ C90 C90_signature_format
Closed under the global context
@@ C90 C90_sign_then_open
Closed under the global context
@@ C90 C90_pk_iff
Closed under the global context
@@ C90 C90_kat_key_refuses
Closed under the global context
@@ C90 C90_kat_key_refuted
Closed under the global context
@@ C91 C91_c_float_addition_is_correctly_rounded
Axioms:
ClassicalDedekindReals.sig_forall_dec
  : forall P : nat -> Prop,
    (forall n : nat, {P n} + {~ P n}) ->
    {n : nat | ~ P n} + {forall n : nat, P n}
FunctionalExtensionality.functional_extensionality_dep
  : forall (A : Type) (B : A -> Type) (f g : forall x : A, B x),
    (forall x : A, f x = g x) -> f = g
@@ C91 C91_c_float_subtraction_is_correctly_rounded
Axioms:
ClassicalDedekindReals.sig_forall_dec
  : forall P : nat -> Prop,
    (forall n : nat, {P n} + {~ P n}) ->
    {n : nat | ~ P n} + {forall n : nat, P n}
FunctionalExtensionality.functional_extensionality_dep
  : forall (A : Type) (B : A -> Type) (f g : forall x : A, B x),
    (forall x : A, f x = g x) -> f = g
@@ C91 C91_c_float_negation_is_exact
Axioms:
ClassicalDedekindReals.sig_forall_dec
  : forall P : nat -> Prop,
    (forall n : nat, {P n} + {~ P n}) ->
    {n : nat | ~ P n} + {forall n : nat, P n}
FunctionalExtensionality.functional_extensionality_dep
  : forall (A : Type) (B : A -> Type) (f g : forall x : A, B x),
    (forall x : A, f x = g x) -> f = g
@@ C91 C91_c_float_multiplication_is_correctly_rounded
Axioms:
ClassicalDedekindReals.sig_forall_dec
  : forall P : nat -> Prop,
    (forall n : nat, {P n} + {~ P n}) ->
    {n : nat | ~ P n} + {forall n : nat, P n}
FunctionalExtensionality.functional_extensionality_dep
  : forall (A : Type) (B : A -> Type) (f g : forall x : A, B x),
    (forall x : A, f x = g x) -> f = g
@@ C91 C91_c_float_square_is_correctly_rounded
Axioms:
ClassicalDedekindReals.sig_forall_dec
  : forall P : nat -> Prop,
    (forall n : nat, {P n} + {~ P n}) ->
    {n : nat | ~ P n} + {forall n : nat, P n}
FunctionalExtensionality.functional_extensionality_dep
  : forall (A : Type) (B : A -> Type) (f g : forall x : A, B x),
    (forall x : A, f x = g x) -> f = g
@@ C91 C91_correct_rounding_is_unique
Axioms:
ClassicalDedekindReals.sig_forall_dec
  : forall P : nat -> Prop,
    (forall n : nat, {P n} + {~ P n}) ->
    {n : nat | ~ P n} + {forall n : nat, P n}
FunctionalExtensionality.functional_extensionality_dep
  : forall (A : Type) (B : A -> Type) (f g : forall x : A, B x),
    (forall x : A, f x = g x) -> f = g
@@ C92 C92_c_float_division_is_correctly_rounded
Axioms:
ClassicalDedekindReals.sig_forall_dec
  : forall P : nat -> Prop,
    (forall n : nat, {P n} + {~ P n}) ->
    {n : nat | ~ P n} + {forall n : nat, P n}
FunctionalExtensionality.functional_extensionality_dep
  : forall (A : Type) (B : A -> Type) (f g : forall x : A, B x),
    (forall x : A, f x = g x) -> f = g
@@ C92 C92_c_float_inverse_is_correctly_rounded
Axioms:
ClassicalDedekindReals.sig_forall_dec
  : forall P : nat -> Prop,
    (forall n : nat, {P n} + {~ P n}) ->
    {n : nat | ~ P n} + {forall n : nat, P n}
FunctionalExtensionality.functional_extensionality_dep
  : forall (A : Type) (B : A -> Type) (f g : forall x : A, B x),
    (forall x : A, f x = g x) -> f = g
@@ C92 C92_c_float_square_root_is_correctly_rounded
Axioms:
ClassicalDedekindReals.sig_not_dec : forall P : Prop, {~ ~ P} + {~ P}
ClassicalDedekindReals.sig_forall_dec
  : forall P : nat -> Prop,
    (forall n : nat, {P n} + {~ P n}) ->
    {n : nat | ~ P n} + {forall n : nat, P n}
FunctionalExtensionality.functional_extensionality_dep
  : forall (A : Type) (B : A -> Type) (f g : forall x : A, B x),
    (forall x : A, f x = g x) -> f = g
@@ C93 C93_c_integer_to_float_is_correctly_rounded
Axioms:
ClassicalDedekindReals.sig_forall_dec
  : forall P : nat -> Prop,
    (forall n : nat, {P n} + {~ P n}) ->
    {n : nat | ~ P n} + {forall n : nat, P n}
FunctionalExtensionality.functional_extensionality_dep
  : forall (A : Type) (B : A -> Type) (f g : forall x : A, B x),
    (forall x : A, f x = g x) -> f = g
@@ C93 C93_c_integer_of_53_bits_converts_exactly
Axioms:
ClassicalDedekindReals.sig_forall_dec
  : forall P : nat -> Prop,
    (forall n : nat, {P n} + {~ P n}) ->
    {n : nat | ~ P n} + {forall n : nat, P n}
FunctionalExtensionality.functional_extensionality_dep
  : forall (A : Type) (B : A -> Type) (f g : forall x : A, B x),
    (forall x : A, f x = g x) -> f = g
@@ C93 C93_c_truncation
Axioms:
ClassicalDedekindReals.sig_forall_dec
  : forall P : nat -> Prop,
    (forall n : nat, {P n} + {~ P n}) ->
    {n : nat | ~ P n} + {forall n : nat, P n}
FunctionalExtensionality.functional_extensionality_dep
  : forall (A : Type) (B : A -> Type) (f g : forall x : A, B x),
    (forall x : A, f x = g x) -> f = g
@@ C93 C93_c_floor
Axioms:
ClassicalDedekindReals.sig_forall_dec
  : forall P : nat -> Prop,
    (forall n : nat, {P n} + {~ P n}) ->
    {n : nat | ~ P n} + {forall n : nat, P n}
FunctionalExtensionality.functional_extensionality_dep
  : forall (A : Type) (B : A -> Type) (f g : forall x : A, B x),
    (forall x : A, f x = g x) -> f = g
@@ C93 C93_c_floor_of_minus_zero
Axioms:
ClassicalDedekindReals.sig_forall_dec
  : forall P : nat -> Prop,
    (forall n : nat, {P n} + {~ P n}) ->
    {n : nat | ~ P n} + {forall n : nat, P n}
FunctionalExtensionality.functional_extensionality_dep
  : forall (A : Type) (B : A -> Type) (f g : forall x : A, B x),
    (forall x : A, f x = g x) -> f = g
@@ C93 C93_c_round_to_integer
Axioms:
ClassicalDedekindReals.sig_forall_dec
  : forall P : nat -> Prop,
    (forall n : nat, {P n} + {~ P n}) ->
    {n : nat | ~ P n} + {forall n : nat, P n}
FunctionalExtensionality.functional_extensionality_dep
  : forall (A : Type) (B : A -> Type) (f g : forall x : A, B x),
    (forall x : A, f x = g x) -> f = g
@@ C93 C93_c_comparison
Axioms:
ClassicalDedekindReals.sig_forall_dec
  : forall P : nat -> Prop,
    (forall n : nat, {P n} + {~ P n}) ->
    {n : nat | ~ P n} + {forall n : nat, P n}
FunctionalExtensionality.functional_extensionality_dep
  : forall (A : Type) (B : A -> Type) (f g : forall x : A, B x),
    (forall x : A, f x = g x) -> f = g
@@ C93 C93_c_comparison_of_zeros
Closed under the global context
@@ C93 C93_c_halving
Axioms:
ClassicalDedekindReals.sig_forall_dec
  : forall P : nat -> Prop,
    (forall n : nat, {P n} + {~ P n}) ->
    {n : nat | ~ P n} + {forall n : nat, P n}
FunctionalExtensionality.functional_extensionality_dep
  : forall (A : Type) (B : A -> Type) (f g : forall x : A, B x),
    (forall x : A, f x = g x) -> f = g
@@ C93 C93_c_doubling
Axioms:
ClassicalDedekindReals.sig_forall_dec
  : forall P : nat -> Prop,
    (forall n : nat, {P n} + {~ P n}) ->
    {n : nat | ~ P n} + {forall n : nat, P n}
FunctionalExtensionality.functional_extensionality_dep
  : forall (A : Type) (B : A -> Type) (f g : forall x : A, B x),
    (forall x : A, f x = g x) -> f = g
@@ C93 C93_c_exact_constants
Axioms:
ClassicalDedekindReals.sig_forall_dec
  : forall P : nat -> Prop,
    (forall n : nat, {P n} + {~ P n}) ->
    {n : nat | ~ P n} + {forall n : nat, P n}
FunctionalExtensionality.functional_extensionality_dep
  : forall (A : Type) (B : A -> Type) (f g : forall x : A, B x),
    (forall x : A, f x = g x) -> f = g
@@ C93 C93_c_constants_for_2_63_minus_1
Closed under the global context
@@ C93 C93_c_rounded_constants
Axioms:
ClassicalDedekindReals.sig_not_dec : forall P : Prop, {~ ~ P} + {~ P}
ClassicalDedekindReals.sig_forall_dec
  : forall P : nat -> Prop,
    (forall n : nat, {P n} + {~ P n}) ->
    {n : nat | ~ P n} + {forall n : nat, P n}
FunctionalExtensionality.functional_extensionality_dep
  : forall (A : Type) (B : A -> Type) (f g : forall x : A, B x),
    (forall x : A, f x = g x) -> f = g
@@ C94 C94_draws_follow_the_refills
Closed under the global context
@@ C94 C94_same_refills_as_python
Closed under the global context
@@ C94 C94_same_draws_as_python
Closed under the global context
@@ C94 C94_nine_bytes_before_the_end
Closed under the global context
@@ C94 C94_get_bytes_repeats
Closed under the global context
@@ C95 C95_c_base_sampler_is_the_python_one
Closed under the global context
@@ C95 C95_c_comparison_is_the_python_one
Closed under the global context
@@ C95 C95_c_acceptance
Closed under the global context
@@ C95 C95_c_rejection_loop_is_the_python_one
Closed under the global context
@@ C95 C95_c_sample_range
Axioms:
ClassicalDedekindReals.sig_forall_dec
  : forall P : nat -> Prop,
    (forall n : nat, {P n} + {~ P n}) ->
    {n : nat | ~ P n} + {forall n : nat, P n}
FunctionalExtensionality.functional_extensionality_dep
  : forall (A : Type) (B : A -> Type) (f g : forall x : A, B x),
    (forall x : A, f x = g x) -> f = g
@@ C95 C95_c_exponential_is_the_python_polynomial
Axioms:
ClassicalDedekindReals.sig_forall_dec
  : forall P : nat -> Prop,
    (forall n : nat, {P n} + {~ P n}) ->
    {n : nat | ~ P n} + {forall n : nat, P n}
FunctionalExtensionality.functional_extensionality_dep
  : forall (A : Type) (B : A -> Type) (f g : forall x : A, B x),
    (forall x : A, f x = g x) -> f = g
@@ C96 C96_c_threshold_is_accurate
Axioms:
ClassicalDedekindReals.sig_not_dec : forall P : Prop, {~ ~ P} + {~ P}
ClassicalDedekindReals.sig_forall_dec
  : forall P : nat -> Prop,
    (forall n : nat, {P n} + {~ P n}) ->
    {n : nat | ~ P n} + {forall n : nat, P n}
FunctionalExtensionality.functional_extensionality_dep
  : forall (A : Type) (B : A -> Type) (f g : forall x : A, B x),
    (forall x : A, f x = g x) -> f = g
Classical_Prop.classic : forall P : Prop, P \/ ~ P
@@ C96 C96_c_range_reduction
Axioms:
ClassicalDedekindReals.sig_not_dec : forall P : Prop, {~ ~ P} + {~ P}
ClassicalDedekindReals.sig_forall_dec
  : forall P : nat -> Prop,
    (forall n : nat, {P n} + {~ P n}) ->
    {n : nat | ~ P n} + {forall n : nat, P n}
FunctionalExtensionality.functional_extensionality_dep
  : forall (A : Type) (B : A -> Type) (f g : forall x : A, B x),
    (forall x : A, f x = g x) -> f = g
Classical_Prop.classic : forall P : Prop, P \/ ~ P
@@ C96 C96_c_scale_factor_one_is_wrong
Closed under the global context
@@ C97 C97_c_round_is_gaussian
Axioms:
ClassicalDedekindReals.sig_not_dec : forall P : Prop, {~ ~ P} + {~ P}
ClassicalDedekindReals.sig_forall_dec
  : forall P : nat -> Prop,
    (forall n : nat, {P n} + {~ P n}) ->
    {n : nat | ~ P n} + {forall n : nat, P n}
FunctionalExtensionality.functional_extensionality_dep
  : forall (A : Type) (B : A -> Type) (f g : forall x : A, B x),
    (forall x : A, f x = g x) -> f = g
Classical_Prop.classic : forall P : Prop, P \/ ~ P
@@ C97 C97_c_acceptance
Axioms:
ClassicalDedekindReals.sig_not_dec : forall P : Prop, {~ ~ P} + {~ P}
ClassicalDedekindReals.sig_forall_dec
  : forall P : nat -> Prop,
    (forall n : nat, {P n} + {~ P n}) ->
    {n : nat | ~ P n} + {forall n : nat, P n}
FunctionalExtensionality.functional_extensionality_dep
  : forall (A : Type) (B : A -> Type) (f g : forall x : A, B x),
    (forall x : A, f x = g x) -> f = g
Classical_Prop.classic : forall P : Prop, P \/ ~ P
@@ C97 C97_c_exponent
Axioms:
ClassicalDedekindReals.sig_not_dec : forall P : Prop, {~ ~ P} + {~ P}
ClassicalDedekindReals.sig_forall_dec
  : forall P : nat -> Prop,
    (forall n : nat, {P n} + {~ P n}) ->
    {n : nat | ~ P n} + {forall n : nat, P n}
FunctionalExtensionality.functional_extensionality_dep
  : forall (A : Type) (B : A -> Type) (f g : forall x : A, B x),
    (forall x : A, f x = g x) -> f = g
@@ C97 C97_c_rounds
Closed under the global context
@@ C98 C98_aes256
Closed under the global context
@@ C98 C98_counter
Closed under the global context
@@ C98 C98_same_bytes_as_python
Closed under the global context
@@ C98 C98_sp800_90a
Closed under the global context
