{
 "claims": [
  {
   "property": "C01",
   "status": "proved",
   "theorems": [
    "C01_honest_signatures_verify"
   ],
   "note": ""
  },
  {
   "property": "C02",
   "status": "proved",
   "theorems": [
    "C02_sign_returns"
   ],
   "note": ""
  },
  {
   "property": "C03",
   "status": "proved",
   "theorems": [
    "C03_keygen_consistent"
   ],
   "note": ""
  },
  {
   "property": "C04",
   "status": "proved",
   "theorems": [
    "C04_roundtrip"
   ],
   "note": ""
  },
  {
   "property": "C05",
   "status": "proved",
   "theorems": [
    "C05_transport"
   ],
   "note": ""
  },
  {
   "property": "C06",
   "status": "proved",
   "theorems": [
    "C06_length",
    "C06_length_of_signatures"
   ],
   "note": ""
  },
  {
   "property": "C07",
   "status": "proved",
   "theorems": [
    "C07_canonical",
    "C07_injective"
   ],
   "note": ""
  },
  {
   "property": "C08",
   "status": "partial",
   "theorems": [
    "C08_truncated_refuted",
    "C08_trailing_refuted",
    "C08_deserialize_partial"
   ],
   "note": "The property as stated is false of the code (release build): any shorter input is read out of bounds (C08_truncated_refuted) and trailing bytes are accepted (C08_trailing_refuted). C08_deserialize_partial says exactly which inputs are safe and what is kept of them."
  },
  {
   "property": "C09",
   "status": "partial",
   "theorems": [
    "C09_fresh_process_refuted",
    "C09_history_refuted",
    "C09_larger_field_refuted",
    "C09_serialize_fresh_refuted",
    "C09_same_field_partial"
   ],
   "note": "The property as stated is false of the code: the result depends on the static field state (four C09_*_refuted theorems: fresh process, other history, larger field, serializing). C09_same_field_partial: with a preceding sign/verify on the same field nothing else matters."
  },
  {
   "property": "C10",
   "status": "proved",
   "theorems": [
    "C10_sign_history",
    "C10_verify_history"
   ],
   "note": ""
  },
  {
   "property": "C11",
   "status": "proved",
   "theorems": [
    "C11_field_laws",
    "C11_supported_lambdas"
   ],
   "note": ""
  },
  {
   "property": "C12",
   "status": "proved",
   "theorems": [
    "C12_mul_is_remainder",
    "C12_reduce_is_the_remainder",
    "C12_barret_variant"
   ],
   "note": ""
  },
  {
   "property": "C13",
   "status": "proved",
   "theorems": [
    "C13_inverse"
   ],
   "note": ""
  },
  {
   "property": "C14",
   "status": "proved",
   "theorems": [
    "C14_lift_homomorphism"
   ],
   "note": ""
  },
  {
   "property": "C15",
   "status": "proved",
   "theorems": [
    "C15_byte_encoding"
   ],
   "note": ""
  },
  {
   "property": "C16",
   "status": "proved",
   "theorems": [
    "C16_dot_product"
   ],
   "note": ""
  },
  {
   "property": "C17",
   "status": "proved",
   "theorems": [
    "C17_interpolation",
    "C17_interpolation_size_check",
    "C17_build_from_roots",
    "C17_eval",
    "C17_polynomial_product"
   ],
   "note": ""
  },
  {
   "property": "C18",
   "status": "proved",
   "theorems": [
    "C18_points_distinct",
    "C18_every_parameter_set_has_a_field",
    "C18_points_distinct_any_count"
   ],
   "note": ""
  },
  {
   "property": "C19",
   "status": "proved",
   "theorems": [
    "C19_sbox_inversion",
    "C19_multiply"
   ],
   "note": ""
  },
  {
   "property": "C20",
   "status": "proved",
   "theorems": [
    "C20_aes_128_is_fips197",
    "C20_aes_192_is_fips197",
    "C20_aes_256_is_fips197"
   ],
   "note": ""
  },
  {
   "property": "C21",
   "status": "proved",
   "theorems": [
    "C21_zero_detection_exact"
   ],
   "note": ""
  },
  {
   "property": "C22",
   "status": "proved",
   "theorems": [
    "C22_sbox_pairs",
    "C22_recording_agrees"
   ],
   "note": ""
  },
  {
   "property": "C23",
   "status": "proved",
   "theorems": [
    "C23_shares_defined",
    "C23_shares_recombine",
    "C23_shares_sound"
   ],
   "note": ""
  },
  {
   "property": "C24",
   "status": "proved",
   "theorems": [
    "C24_rebuild"
   ],
   "note": ""
  },
  {
   "property": "C25",
   "status": "proved",
   "theorems": [
    "C25_reveal_hides",
    "C25_hidden_leaf_free"
   ],
   "note": ""
  },
  {
   "property": "C26",
   "status": "proved",
   "theorems": [
    "C26_reveal_size"
   ],
   "note": ""
  },
  {
   "property": "C27",
   "status": "partial",
   "theorems": [
    "C27_first_constructor_partial",
    "C27_first_constructor_refuted",
    "C27_second_constructor",
    "C27_parameter_sets"
   ],
   "note": "The property as stated is false of the code: for n <= 2^ceil(log2 n)-16 (smallest n = 33) the constructor from a seed overruns a 32-byte local array (C27_first_constructor_refuted). Exact safe range proved; it contains every parameter set. The second constructor is safe for every n."
  },
  {
   "property": "C28",
   "status": "proved",
   "theorems": [
    "C28_commit_four",
    "C28_tapes_four",
    "C28_expand_four"
   ],
   "note": ""
  },
  {
   "property": "C29",
   "status": "partial",
   "theorems": [
    "C29_split_partial",
    "C29_lengths",
    "C29_refuted",
    "C29_oracle"
   ],
   "note": "The property as stated is false of the code for calls of about 4 GiB: after a partial block an update whose remaining length is 2^32 bytes never returns (C29_refuted). C29_split_partial: any number of updates, each below 2^32 - 200 bytes. C29_lengths: exact outcome of an update of every length below 2^61 (works, never returns, writes outside the state), nothing left out."
  },
  {
   "property": "C30",
   "status": "partial",
   "theorems": [
    "C30_stream_partial",
    "C30_refuted"
   ],
   "note": "Squeezing 2^32 bytes in one call never returns (C30_refuted). C30_stream_partial: any number of squeeze calls, each below 2^32 - 200 bytes."
  },
  {
   "property": "C31",
   "status": "proved",
   "theorems": [
    "C31_lanes",
    "C31_output"
   ],
   "note": ""
  },
  {
   "property": "C32",
   "status": "proved",
   "theorems": [
    "C32_party_challenges",
    "C32_party_challenges_power_of_two",
    "C32_parameter_sets"
   ],
   "note": ""
  },
  {
   "property": "C33",
   "status": "proved",
   "theorems": [
    "C33_evaluation_challenges",
    "C33_coefficients"
   ],
   "note": ""
  },
  {
   "property": "C34",
   "status": "proved",
   "theorems": [
    "C34_tape_free",
    "C34_tape_covered"
   ],
   "note": ""
  },
  {
   "property": "C35",
   "status": "proved",
   "theorems": [
    "C35_slots",
    "C35_write_one",
    "C35_in_bounds",
    "C35_get_repetition",
    "C35_spans_are_slots",
    "C35_nested_lists"
   ],
   "note": ""
  },
  {
   "property": "C36",
   "status": "proved",
   "theorems": [
    "C36_table_consistent",
    "C36_builtin_regular"
   ],
   "note": ""
  },
  {
   "property": "C37",
   "status": "partial",
   "theorems": [
    "C37_lookup_domain",
    "C37_self_identification_partial",
    "C37_self_identification_refuted"
   ],
   "note": "The property as stated is false of the code: table entries 7 and 8 carry each other's name (C37_self_identification_refuted). Proved for every other parameter set; lookup domain proved."
  },
  {
   "property": "C38",
   "status": "proved",
   "theorems": [
    "C38_deterministic",
    "C38_salt"
   ],
   "note": ""
  },
  {
   "property": "C39",
   "status": "proved",
   "theorems": [
    "C39_bound_to_message_and_key"
   ],
   "note": ""
  },
  {
   "property": "C40",
   "status": "partial",
   "theorems": [
    "C40_unaltered_partial",
    "C40_unaltered_strict_partial",
    "C40_malleable",
    "C40_refuted"
   ],
   "note": "The property as stated is false of the code: the last P offset is not hashed, so it can be changed in repetitions that leave party 0 closed or whose R is one of the first 2*m2 points (C40_refuted, and C40_malleable for every hash function). C40_unaltered_partial: that is the only alteration possible without a hash collision."
  },
  {
   "property": "C41",
   "status": "proved",
   "theorems": [
    "C41_acceptance"
   ],
   "note": ""
  },
  {
   "property": "C42",
   "status": "proved",
   "theorems": [
    "C42_outcomes",
    "C42_throws_iff",
    "C42_deserialized"
   ],
   "note": ""
  },
  {
   "property": "C43",
   "status": "proved",
   "theorems": [
    "C43_perfect_masking",
    "C43_nothing_else",
    "C43_every_witness",
    "C43_signature",
    "C43_excluded_points_reveal"
   ],
   "note": ""
  },
  {
   "property": "C44",
   "status": "partial",
   "theorems": [
    "C44_keygen_exact",
    "C44_every_byte_delivered_partial",
    "C44_successful_calls_partial",
    "C44_failed_call_refuted",
    "C44_plaintext_refuted"
   ],
   "note": "The property as stated is false of the code: the result of rand_bytes is ignored, so after a failed call stale or zero bytes end up in the key pair (C44_failed_call_refuted, C44_plaintext_refuted). The partial theorems give the exact characterization for every sequence of calls: every key byte was delivered by some call, and if every call succeeds all bytes are the latest delivered ones."
  },
  {
   "property": "C45",
   "status": "proved",
   "theorems": [
    "C45_recombine"
   ],
   "note": ""
  },
  {
   "property": "C46",
   "status": "proved",
   "theorems": [
    "C46_phase_1",
    "C46_phase_3",
    "C46_phase_3_defined",
    "C46_signature"
   ],
   "note": ""
  },
  {
   "property": "C47",
   "status": "partial",
   "theorems": [
    "C47_commit_input",
    "C47_tape_input",
    "C47_node_input",
    "C47_phase_inputs",
    "C47_challenge_inputs",
    "C47_start_input",
    "C47_same_kind",
    "C47_indices",
    "C47_different_kinds_partial",
    "C47_collisions",
    "C47_refuted"
   ],
   "note": "False as stated (C47_refuted): a seed commitment and a tape can have the same hash input. Proved: inputs are injective within each kind of use, and C47_collisions says exactly which pairs of kinds can coincide for each parameter set."
  },
  {
   "property": "C48",
   "status": "proved",
   "theorems": [
    "C48_ceil_log2",
    "C48_ceil_log2_zero",
    "C48_portable_clz"
   ],
   "note": ""
  },
  {
   "property": "C49",
   "status": "proved",
   "theorems": [
    "C49_permutation",
    "C49_hash",
    "C49_hash_x4"
   ],
   "note": ""
  },
  {
   "property": "C50",
   "status": "proved",
   "theorems": [
    "C50_opt64",
    "C50_opt64_x4"
   ],
   "note": ""
  },
  {
   "property": "C51",
   "status": "proved",
   "theorems": [
    "C51_avx2",
    "C51_calls",
    "C51_length_refuted"
   ],
   "note": ""
  },
  {
   "property": "C52",
   "status": "proved",
   "theorems": [
    "C52_simd256",
    "C52_alignment_refuted"
   ],
   "note": ""
  },
  {
   "property": "C53",
   "status": "proved",
   "theorems": [
    "C53_scalar",
    "C53_four",
    "C53_interoperable"
   ],
   "note": ""
  },
  {
   "property": "C54",
   "status": "partial",
   "theorems": [
    "C54_forged_accepted",
    "C54_forger_returns",
    "C54_points_drawn",
    "C54_no_key",
    "C54_refuted"
   ],
   "note": "The property as stated is false of the code (finding F16): the last P offset is not hashed before R is drawn, so Forge.forge makes accepted signatures from public data alone, for every hash function, public key and message (C54_forged_accepted, C54_forger_returns, C54_points_drawn), also for a public key that has no secret key (C54_no_key, C54_refuted). Nothing weaker of this property is proved under this id."
  },
  {
   "property": "C55",
   "status": "proved",
   "theorems": [
    "C55_extraction",
    "C55_few_coefficients",
    "C55_few_points"
   ],
   "note": ""
  },
  {
   "property": "C56",
   "status": "partial",
   "theorems": [
    "C56_one_thread",
    "C56_race_refuted",
    "C56_two_fields_refuted",
    "C56_same_field_partial",
    "C56_readers_partial"
   ],
   "note": "Refuted: unsynchronised static state (F17). Proved for threads that use parameter sets with one field, accesses being atomic; and for threads that neither sign nor verify, which do not race."
  },
  {
   "property": "C57",
   "status": "partial",
   "theorems": [
    "C57_getrandom",
    "C57_urandom_partial",
    "C57_urandom_returns_partial",
    "C57_end_of_file_refuted",
    "C57_keygen_partial",
    "C57_keygen_refuted",
    "C57_library"
   ],
   "note": "Refuted: a read that reports the end of the file is repeated for ever (F18), and key generation ignores failures. Proved: the getrandom variant; the /dev/urandom variant when it returns, and when it returns."
  },
  {
   "property": "C58",
   "status": "partial",
   "theorems": [
    "C58_keygen",
    "C58_honest_partial",
    "C58_returns_partial",
    "C58_overrun_refuted",
    "C58_verify",
    "C58_verify_power",
    "C58_unused_entries",
    "C58_malleable_refuted"
   ],
   "note": "Refuted for numbers of parties more than 15 below the next power of two (F4): every signing call overruns a buffer; and for numbers that are not powers of two verification ignores some bytes of a signature (F23). Proved for all others; verification of arbitrary signatures is characterised exactly, without undefined behaviour, for every number of parties from 2 to 65535."
  },
  {
   "property": "C59",
   "status": "proved",
   "theorems": [
    "C59_inputs",
    "C59_salts"
   ],
   "note": ""
  },
  {
   "property": "C60",
   "status": "partial",
   "theorems": [
    "C60_same_call",
    "C60_count_partial",
    "C60_refuted",
    "C60_shares_refuted",
    "C60_lines_refuted"
   ],
   "note": "Refuted (F19): the entries read determine the secret key. Proved: their number depends on the parameter set only."
  },
  {
   "property": "C61",
   "status": "partial",
   "theorems": [
    "C61_returns_partial",
    "C61_rejected_partial",
    "C61_right_public_key_partial",
    "C61_zero",
    "C61_refuted"
   ],
   "note": "Refuted for secret keys with a zero S-box input (F20): every signing call writes past the end of a vector. Proved for all other key pairs: signing returns, and its signature is rejected or a collision in h_1 is exhibited."
  },
  {
   "property": "C62",
   "status": "proved",
   "theorems": [
    "C62_opened_parties",
    "C62_signatures",
    "C62_opened_parties_any",
    "C62_opened_parties_drawn",
    "C62_coefficients",
    "C62_evaluation_points",
    "C62_evaluation_points_drawn"
   ],
   "note": ""
  },
  {
   "property": "C63",
   "status": "proved",
   "theorems": [
    "C63_keys_unbiased"
   ],
   "note": ""
  },
  {
   "property": "C64",
   "status": "proved",
   "theorems": [
    "C64_keygen",
    "C64_sign",
    "C64_verify",
    "C64_sign_any",
    "C64_deserialize",
    "C64_trailing"
   ],
   "note": ""
  },
  {
   "property": "C65",
   "status": "partial",
   "theorems": [
    "C65_arguments",
    "C65_bench",
    "C65_messages",
    "C65_no_numeral_refuted",
    "C65_free_partial",
    "C65_free_missing_refuted",
    "C65_free_kappa_refuted",
    "C65_free_product_refuted"
   ],
   "note": "proved: arguments of bench that are numerals, what bench runs for any arguments, what bench_free runs for proper instances.  False of the code (F22): words that are no numerals are refused; bench_free refuses missing arguments, an invalid kappa and a wrong split m1 * m2."
  },
  {
   "property": "C66",
   "status": "proved",
   "theorems": [
    "C66_sign_and_verify",
    "C66_exceptions"
   ],
   "note": ""
  },
  {
   "property": "C67",
   "status": "partial",
   "theorems": [
    "C67_message_partial",
    "C67_fips202_partial",
    "C67_sponge",
    "C67_refused",
    "C67_early_partial",
    "C67_order_refuted",
    "C67_dropped_refuted"
   ],
   "note": "Lengths below 2^32 - 200 bytes per call (beyond: C29, C30).  C67_order_refuted, C67_dropped_refuted: the return value does not show that bits were taken out of order (F24)."
  },
  {
   "property": "C68",
   "status": "proved",
   "theorems": [
    "C68_oneshot",
    "C68_refused"
   ],
   "note": ""
  },
  {
   "property": "C69",
   "status": "proved",
   "theorems": [
    "C69_lanes",
    "C69_fips202",
    "C69_odd_refused"
   ],
   "note": ""
  },
  {
   "property": "C70",
   "status": "proved",
   "theorems": [
    "C70_serialize",
    "C70_deserialize",
    "C70_signatures"
   ],
   "note": ""
  },
  {
   "property": "C71",
   "status": "proved",
   "theorems": [
    "C71_signature",
    "C71_unique",
    "C71_returned"
   ],
   "note": ""
  },
  {
   "property": "C72",
   "status": "proved",
   "theorems": [
    "C72_lambda",
    "C72_key_size"
   ],
   "note": ""
  },
  {
   "property": "C73",
   "status": "proved",
   "theorems": [
    "C73_ignored",
    "C73_needed",
    "C73_few_proofs",
    "C73_extra_accepted"
   ],
   "note": ""
  },
  {
   "property": "C74",
   "status": "proved",
   "theorems": [
    "C74_parameter_set",
    "C74_bytes",
    "C74_chosen",
    "C74_number"
   ],
   "note": ""
  },
  {
   "property": "C75",
   "status": "proved",
   "theorems": [
    "C75_verify",
    "C75_sign",
    "C75_deserialize",
    "C75_deserialize_after",
    "C75_keygen"
   ],
   "note": ""
  },
  {
   "property": "C76",
   "status": "partial",
   "theorems": [
    "C76_sign",
    "C76_verify",
    "C76_sign_honest",
    "C76_verify_shaped",
    "C76_honest",
    "C76_acceptance",
    "C76_acceptance_power",
    "C76_spill",
    "C76_spill_accepted_refuted"
   ],
   "note": "Proved for generated keys and for signature objects with the prescribed lengths (C76_sign_honest, C76_verify_shaped, C76_honest, C76_acceptance), and for any call whose counterpart with separate buffers is defined (C76_sign, C76_verify). False for objects with over-long vectors: C76_spill_accepted_refuted."
  },
  {
   "property": "C77",
   "status": "proved",
   "theorems": [
    "C77_points",
    "C77_parties",
    "C77_verify",
    "C77_sign",
    "C77_keygen"
   ],
   "note": ""
  },
  {
   "property": "C78",
   "status": "proved",
   "theorems": [
    "C78_challenges",
    "C78_coefficients",
    "C78_points",
    "C78_parties",
    "C78_together",
    "C78_one_wrong_pair",
    "C78_chosen_points"
   ],
   "note": ""
  },
  {
   "property": "C79",
   "status": "proved",
   "theorems": [
    "C79_evaluation",
    "C79_extraction",
    "C79_passes",
    "C79_honest"
   ],
   "note": ""
  },
  {
   "property": "C80",
   "status": "partial",
   "theorems": [
    "C80_avx2",
    "C80_opt64",
    "C80_same",
    "C80_calls",
    "C80_no_rounds_refuted",
    "C80_many_rounds_refuted",
    "C80_all_refuted",
    "C80_no_lanes_refuted",
    "C80_overlap_refuted"
   ],
   "note": "Proved for all sequences of calls (C80_avx2, C80_opt64, C80_same), but false of the C code when all 200 bytes are extracted in one call (C80_all_refuted: it reads a lane beyond the state), and the two implementations differ for 0 and for more than 24 rounds (C80_no_rounds_refuted, C80_many_rounds_refuted) and for blocks of no lanes (C80_no_lanes_refuted). An output that overlaps input not yet read is excluded (C80_overlap_refuted)."
  },
  {
   "property": "C81",
   "status": "partial",
   "theorems": [
    "C81_avx2_partial",
    "C81_opt64_partial",
    "C81_same_partial",
    "C81_early_partial",
    "C81_fips202_partial",
    "C81_function",
    "C81_refused",
    "C81_full_rate_refuted"
   ],
   "note": "Lengths below 2^32 - 200 bytes per call (beyond: C29, C30), C81_function without that bound. With the C code false for a rate of 1600 bits, which Keccak_HashInitialize accepts (C81_full_rate_refuted)."
  },
  {
   "property": "C82",
   "status": "partial",
   "theorems": [
    "C82_simd256_partial",
    "C82_opt64_partial",
    "C82_same_partial",
    "C82_early_partial",
    "C82_fips202_partial",
    "C82_refused",
    "C82_full_rate_refuted"
   ],
   "note": "Lengths below 2^32 - 200 bytes per call (beyond: C29, C30). Tables and states aligned to 32 bytes (C52_alignment_refuted). With the C code false for a rate of 1600 bits (C82_full_rate_refuted)."
  },
  {
   "property": "C83",
   "status": "partial",
   "theorems": [
    "C83_simd256",
    "C83_opt64",
    "C83_same",
    "C83_all_lanes_refuted",
    "C83_overlap_refuted"
   ],
   "note": "Proved for all sequences of calls (C83_simd256, C83_opt64, C83_same), but false of the C code when all 25 lanes are extracted at once (C83_all_lanes_refuted: it reads a lane beyond the state). Rows of the output that overlap (laneOffset below laneCount) are left out; there the two implementations differ (C83_overlap_refuted). States and tables aligned to 32 bytes (C52_alignment_refuted)."
  },
  {
   "property": "C84",
   "status": "partial",
   "theorems": [
    "C84_simd256",
    "C84_no_advance_refuted",
    "C84_past_end_refuted"
   ],
   "note": "Proved for all sequences of calls whose blocks advance and do not advance beyond the end of the data (C84_simd256). False otherwise: with laneOffsetSerial 0 the loops do not end (C84_no_advance_refuted), and where the last block advances beyond the end the number of bytes left wraps around and the loops read beyond the data (C84_past_end_refuted). States and tables aligned to 32 bytes; products of offsets below 2^32."
  },
  {
   "property": "C85",
   "status": "proved",
   "theorems": [
    "C85_descriptors",
    "C85_reads",
    "C85_close_on_exec",
    "C85_result"
   ],
   "note": "For the variant of rand_bytes with /dev/urandom, with every system call in the model, the fcntl calls included; C85_result says that its result is that of the model of C57. Between open and fcntl another thread may fork and exec; that is not excluded."
  },
  {
   "property": "C86",
   "status": "proved",
   "theorems": [
    "C86_available",
    "C86_descriptor",
    "C86_large_refuted"
   ],
   "note": "The descriptor is taken to be at most INT_MAX, as in the statement; C86_large_refuted shows that a larger one would be leaked. The parameter timer of ToolModel is thus always true (C86_available)."
  },
  {
   "property": "C87",
   "status": "partial",
   "theorems": [
    "C87_compress_partial",
    "C87_short_refuted"
   ],
   "note": "Proved for all inputs of at least 800 bytes (C87_compress_partial). False for shorter ones, the empty input included: the loop runs once before its counter is looked at, and reads beyond the input (C87_short_refuted)."
  }
 ]
}