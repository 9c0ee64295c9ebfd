{
 "claims": [
  {
   "property": "C01",
   "status": "proved",
   "theorems": [
    "c01_unsigned_vlq_roundtrip"
   ],
   "note": "Unsigned VLQ round trip"
  },
  {
   "property": "C02",
   "status": "proved",
   "theorems": [
    "c02_signed_vlq_roundtrip"
   ],
   "note": "Signed ZigZag/VLQ round trip"
  },
  {
   "property": "C03",
   "status": "proved",
   "theorems": [
    "c03_vlq_reader_bounded",
    "c03_vlq_reader_accepts_every_chain",
    "c03_narrow_readers_in_range",
    "c03_vlq_writer_shortest"
   ],
   "note": "VLQ reader is bounded and rejects out-of-range narrow values"
  },
  {
   "property": "C04",
   "status": "proved",
   "theorems": [
    "c04_bits_roundtrip",
    "c04_short_string_roundtrip",
    "c04_option_roundtrip"
   ],
   "note": "Bit arrays, short strings and options round trip"
  },
  {
   "property": "C05",
   "status": "proved",
   "theorems": [
    "c05_gf_ring_laws",
    "c05_gf_tests",
    "c05_gf_no_zero_divisors"
   ],
   "note": "GF(2^192) is a field"
  },
  {
   "property": "C06",
   "status": "proved",
   "theorems": [
    "c06_gf_mul_is_polynomial_product",
    "c06_gf_mul_by_i8_is_polynomial_product",
    "c06_remainder_unique"
   ],
   "note": "GF(2^192) multiplication computes polynomial product modulo the pentanomial"
  },
  {
   "property": "C07",
   "status": "proved",
   "theorems": [
    "c07_gf_invert",
    "c07_table_power_is_repeated_squaring"
   ],
   "note": "GF(2^192) inversion"
  },
  {
   "property": "C08",
   "status": "proved",
   "theorems": [
    "c08_interpolation",
    "c08_evaluate_is_polynomial_value",
    "c08_interpolation_unique",
    "c08_interpolation_length_mismatch"
   ],
   "note": "Interpolation passes through every given point"
  },
  {
   "property": "C09",
   "status": "proved",
   "theorems": [
    "c09_gf_bytes_roundtrip",
    "c09_bytes_gf_roundtrip",
    "c09_bytes_are_little_endian",
    "c09_short_bytes_refused",
    "c09_poly_bytes_roundtrip",
    "c09_bytes_poly_roundtrip"
   ],
   "note": "Field element and polynomial byte conversions are inverse"
  },
  {
   "property": "C10",
   "status": "partial",
   "theorems": [
    "c10_prover_complete_partial",
    "c10_prover_complete_refuted",
    "c10_threshold_panics_refuted"
   ],
   "note": "Completeness for every group, hash, message and randomness when no OR lists an alternative twice and no threshold exceeds its children; without either condition the code fails (both refuted by witnesses), so nothing provable is missing."
  },
  {
   "property": "C11",
   "status": "proved",
   "theorems": [
    "c11_prover_refuses"
   ],
   "note": "Prover refuses when secrets are insufficient"
  },
  {
   "property": "C12",
   "status": "proved",
   "theorems": [
    "c12_verifier_accepts_exactly_the_relation",
    "c12_verifier_on_constants",
    "c12_verifier_never_panics",
    "c12_threshold_above_children_panics"
   ],
   "note": "Verifier acceptance is exactly the sigma-protocol relation"
  },
  {
   "property": "C13",
   "status": "proved",
   "theorems": [
    "c13_special_soundness"
   ],
   "note": "Special soundness of the composed protocol"
  },
  {
   "property": "C14",
   "status": "proved",
   "theorems": [
    "c14_simulated_leaf_verifies",
    "c14_simulation_matches_real"
   ],
   "note": "Simulated leaves verify"
  },
  {
   "property": "C15",
   "status": "proved",
   "theorems": [
    "c15_proof_encoding_roundtrip"
   ],
   "note": "Signature encoding round trip"
  },
  {
   "property": "C16",
   "status": "proved",
   "theorems": [
    "c16_fiat_shamir_injective",
    "c16_verifier_hashes_that_string"
   ],
   "note": "Fiat-Shamir input is injective"
  },
  {
   "property": "C17",
   "status": "partial",
   "theorems": [
    "c17_proof_bytes_unique_refuted",
    "c17_response_representation_refuted",
    "c17_canonical_form_partial"
   ],
   "note": "False of the code: appended bytes are ignored and a response may be replaced by a congruent number. Both refutations are proved; what acceptance does imply is C12."
  },
  {
   "property": "C18",
   "status": "proved",
   "theorems": [
    "c18_sigma_proposition_roundtrip",
    "c18_parsed_is_well_formed"
   ],
   "note": "Sigma proposition serialisation round trip"
  },
  {
   "property": "C19",
   "status": "proved",
   "theorems": [
    "c19_and_or_normalization",
    "c19_threshold_normalization"
   ],
   "note": "Normalisation preserves the meaning of sigma propositions"
  },
  {
   "property": "C20",
   "status": "proved",
   "theorems": [
    "c20_type_roundtrip",
    "c20_function_types_refused",
    "c20_parsed_types_reserialize",
    "c20_type_encoding_prefix_free",
    "c20_type_bytes_canonical_refuted"
   ],
   "note": "Round trip, refusal of function types and prefix freedom are proved for every type. c20_type_bytes_canonical_refuted is an additional finding, not a gap: two byte strings decode to the pair (Short, Short)."
  },
  {
   "property": "C21",
   "status": "proved",
   "theorems": [
    "c21_constant_roundtrip",
    "c21_encoding_injective"
   ],
   "note": "Constant serialisation round trip"
  },
  {
   "property": "C22",
   "status": "partial",
   "theorems": [
    "c22_expr_roundtrip",
    "c22_encoding_injective",
    "c22_bools_operand_refuted"
   ],
   "note": "Round trip for every well-formed expression (the well-formedness predicate of SerSpec); false for a binary operation whose left operand is a collection of Boolean constants (refuted)."
  },
  {
   "property": "C23",
   "status": "proved",
   "theorems": [
    "c23_proposition_of_new",
    "c23_template_independent"
   ],
   "note": "Constant segregation is transparent"
  },
  {
   "property": "C24",
   "status": "proved",
   "theorems": [
    "c24_with_constant",
    "c24_unparsed",
    "c24_proposition"
   ],
   "note": "Constant substitution touches only its target"
  },
  {
   "property": "C25",
   "status": "partial",
   "theorems": [
    "c25_unparsed_partial",
    "c25_written_partial",
    "c25_header_bits_refuted",
    "c25_leftover_refuted",
    "c25_embedded_refuted"
   ],
   "note": "Preserved for bytes the library writes and for scripts not understood; false for received bytes with header bits 5-7, leftover bytes inside the size, or a superfluous size byte in a box (refuted)."
  },
  {
   "property": "C26",
   "status": "partial",
   "theorems": [
    "c26_box_value_new",
    "c26_box_value_ops",
    "c26_box_value_mul_u32",
    "c26_box_value_sum",
    "c26_token_amounts",
    "c26_mul_zero_refuted",
    "c26_text_refuted"
   ],
   "note": "Exact or error for every operation except multiplication of a box value by zero and parsing a value from text, which leave the range (refuted)."
  },
  {
   "property": "C27",
   "status": "partial",
   "theorems": [
    "c27_box_roundtrip",
    "c27_candidate_roundtrip",
    "c27_id_identifies",
    "c27_received_bytes_refuted"
   ],
   "note": "Round trips and identity for every well-formed box; for bytes not written by the library the id need not be the hash of the bytes read (refuted)."
  },
  {
   "property": "C28",
   "status": "proved",
   "theorems": [
    "c28_tx_roundtrip",
    "c28_encoding_injective"
   ],
   "note": "Transaction serialisation round trip"
  },
  {
   "property": "C29",
   "status": "proved",
   "theorems": [
    "c29_signed_id",
    "c29_signed_exists",
    "c29_proofs_irrelevant",
    "c29_outputs",
    "c29_id_identifies"
   ],
   "note": "Transaction id does not depend on proofs"
  },
  {
   "property": "C30",
   "status": "partial",
   "theorems": [
    "c30_structure",
    "c30_variables",
    "c30_data",
    "c30_value_partial",
    "c30_value_refuted"
   ],
   "note": "Structure (no double spends, fee box, change) unconditionally; value conservation when both totals are below 2^64. Beyond that the code's wrapping sum loses 2^64 nanoERG (refuted)."
  },
  {
   "property": "C31",
   "status": "proved",
   "theorems": [
    "c31_tokens"
   ],
   "note": "Built transactions conserve tokens"
  },
  {
   "property": "C32",
   "status": "partial",
   "theorems": [
    "c32_selected",
    "c32_tokens",
    "c32_value_partial",
    "c32_change_admissible",
    "c32_not_enough_coins",
    "c32_not_enough_tokens",
    "c32_change_never_short",
    "c32_value_refuted"
   ],
   "note": "Selection, tokens, change and both failure cases unconditionally; the value equation when the offered boxes hold less than 2^64, false otherwise (refuted)."
  },
  {
   "property": "C33",
   "status": "partial",
   "theorems": [
    "c33_min_value",
    "c33_fields",
    "c33_mint_refused",
    "c33_mint",
    "c33_panics_partial",
    "c33_no_panic_refuted"
   ],
   "note": "Minimum value, fields and minting rules for every builder; the exact condition under which it panics is proved, so 'never panics' is false (refuted)."
  },
  {
   "property": "C34",
   "status": "partial",
   "theorems": [
    "c34_regs_of_map",
    "c34_order_irrelevant",
    "c34_map_of_regs",
    "c34_regs_roundtrip",
    "c34_get_refuted",
    "c34_regs_of_vec"
   ],
   "note": "Construction, order independence, lookup by map and encoding; NonMandatoryRegisters::get looks at the wrong position (refuted)."
  },
  {
   "property": "C35",
   "status": "partial",
   "theorems": [
    "c35_roundtrip_partial",
    "c35_accepted_partial",
    "c35_network",
    "c35_injective",
    "c35_empty_script_refuted",
    "c35_trailing_refuted",
    "c35_unknown_network_refuted"
   ],
   "note": "Round trip for every valid address, and what any accepted text must look like; empty scripts, trailing bytes after a point and unknown network bytes behave otherwise (refuted)."
  },
  {
   "property": "C36",
   "status": "partial",
   "theorems": [
    "c36_recognised",
    "c36_script_injective",
    "c36_public_key",
    "c36_same_script_partial",
    "c36_script_hash_partial",
    "c36_hash_input_refuted",
    "c36_script_hash_unreadable_refuted"
   ],
   "note": "Recognition and same script for P2PK and P2S and for everything read or written by the library; script-hash scripts are not readable back and their hash input is not checked (refuted)."
  },
  {
   "property": "C37",
   "status": "proved",
   "theorems": [
    "c37_decode_encode",
    "c37_injective",
    "c37_encode_decode",
    "c37_meaning",
    "c37_refuses"
   ],
   "note": "Base58 round trip"
  },
  {
   "property": "C38",
   "status": "partial",
   "theorems": [
    "c38_parses",
    "c38_roundtrip",
    "c38_injective",
    "c38_accepted_partial",
    "c38_malformed_refuted",
    "c38_apostrophe_refuted",
    "c38_next_partial",
    "c38_next_hardened_end",
    "c38_next_normal_refuted"
   ],
   "note": "Printing and parsing round trip, injectivity, the next path; malformed components, inner apostrophes and the last normal index are accepted wrongly (refuted)."
  },
  {
   "property": "C39",
   "status": "partial",
   "theorems": [
    "c39_child",
    "c39_derive",
    "c39_hardened",
    "c39_bip32_partial",
    "c39_compose",
    "c39_incompatible_partial",
    "c39_short_path_refuted"
   ],
   "note": "Agreement of public and private derivation for whole paths, hardened refusal, BIP32 skip rule while the index stays in range; deriving a shorter path panics (refuted)."
  },
  {
   "property": "C40",
   "status": "proved",
   "theorems": [
    "c40_root_is_textbook_root",
    "c40_proofs_complete",
    "c40_lookup_by_data"
   ],
   "note": "Merkle proofs are complete"
  },
  {
   "property": "C41",
   "status": "proved",
   "theorems": [
    "c41_proofs_sound",
    "c41_data_is_a_leaf"
   ],
   "note": "Merkle proofs are sound"
  },
  {
   "property": "C42",
   "status": "proved",
   "theorems": [
    "c42_multiproofs_complete"
   ],
   "note": "Merkle multiproofs are complete"
  },
  {
   "property": "C43",
   "status": "partial",
   "theorems": [
    "c43_duplicate_index_refuted",
    "c43_position_refuted",
    "c43_internal_node_refuted",
    "c43_entries_have_single_proofs_partial",
    "c43_listed_data_are_leaves_partial"
   ],
   "note": "False of the code in three ways (refuted); proved: with distinct indices every listed leaf has a single-leaf proof to the root and belongs to the tree or a collision is exhibited. Missing because false: the position."
  },
  {
   "property": "C44",
   "status": "partial",
   "theorems": [
    "c44_batch_proof_roundtrip",
    "c44_zero_hash_refuted"
   ],
   "note": "Round trip for every batch proof whose sibling hashes are not 32 zero bytes; those are read back as absent (refuted)."
  },
  {
   "property": "C45",
   "status": "partial",
   "theorems": [
    "c45_pack_unpack",
    "c45_pack_total_partial",
    "c45_long_run_refuted",
    "c45_interlinks_of_chain"
   ],
   "note": "Round trip for every vector that packs; packing succeeds up to 255 links and panics for a longer run of one id (refuted)."
  },
  {
   "property": "C46",
   "status": "partial",
   "theorems": [
    "c46_best_was_received",
    "c46_first_anchored_is_kept",
    "c46_replaced_only_by_better",
    "c46_valid_once_seen_partial",
    "c46_first_unchecked_refuted",
    "c46_poisoned_refuted"
   ],
   "note": "Best proof was received, is anchored, is replaced only by a better one, and is valid once a valid one was processed; the first proof is stored unchecked and can block all later ones (refuted)."
  },
  {
   "property": "C47",
   "status": "partial",
   "theorems": [
    "c47_irreflexive",
    "c47_asymmetric",
    "c47_common_ancestor",
    "c47_score_partial",
    "c47_zero_m_refuted",
    "c47_negative_level_refuted",
    "c47_zero_difficulty_refuted"
   ],
   "note": "Irreflexive, asymmetric, common ancestor, and the exact score for levels in range; does not terminate for m = 0 or a negative level and panics for zero difficulty (refuted)."
  },
  {
   "property": "C48",
   "status": "proved",
   "theorems": [
    "c48_compact_bits",
    "c48_normal_form"
   ],
   "note": "Compact difficulty decoding"
  },
  {
   "property": "C49",
   "status": "partial",
   "theorems": [
    "c49_fixed_length_bytes",
    "c49_table_size",
    "c49_table_size_steps",
    "c49_indexes_partial",
    "c49_indexes_refuted",
    "c49_hit_total_partial",
    "c49_hit_autolykos_partial",
    "c49_hit_version1"
   ],
   "note": "Fixed-length bytes and table size exactly; the hit of version 2 is that of Autolykos, stated on its own (c49_hit_autolykos_partial), and index generation panics exactly when a window is divisible by the table size (refuted totality)."
  },
  {
   "property": "C50",
   "status": "partial",
   "theorems": [
    "c50_header_roundtrip",
    "c50_parsed_id_is_hash",
    "c50_serialization_injective",
    "c50_unknown_fields_refuted",
    "c50_new_fields"
   ],
   "note": "Round trip, injectivity and id of every well-formed header; new fields of up to 255 bytes are skipped whatever they hold (c50_new_fields); a header with unknown new fields gets the id of other bytes (refuted)."
  },
  {
   "property": "C51",
   "status": "partial",
   "theorems": [
    "c51_result_is_exact_or_error",
    "c51_representable_result_is_returned_partial",
    "c51_comparisons",
    "c51_negation",
    "c51_remainder_refuted",
    "c51_big_remainder_refuted"
   ],
   "note": "Exact or error for every operator and operand; representable results are returned except the listed remainder cases (refuted)."
  },
  {
   "property": "C52",
   "status": "partial",
   "theorems": [
    "c52_upcast_keeps_the_number",
    "c52_downcast_keeps_the_number_or_fails",
    "c52_downcast_that_fits_succeeds_partial",
    "c52_downcast_after_upcast_partial",
    "c52_downcast_after_upcast_refuted"
   ],
   "note": "Upcast, downcast and their composition exactly, except from big integers, which are never cast down (refuted)."
  },
  {
   "property": "C53",
   "status": "partial",
   "theorems": [
    "c53_by_index",
    "c53_size",
    "c53_slice",
    "c53_append",
    "c53_zip",
    "c53_indices",
    "c53_updated",
    "c53_patch_partial",
    "c53_update_many",
    "c53_index_of_partial",
    "c53_map",
    "c53_filter",
    "c53_exists",
    "c53_forall",
    "c53_fold",
    "c53_index_of_refuted",
    "c53_patch_refuted",
    "c53_flat_map_fails_refuted",
    "c53_flat_map_type_refuted"
   ],
   "note": "Fifteen operations meet their list specification; indexOf with a start, patch with a negative index and flatMap do not (refuted)."
  },
  {
   "property": "C54",
   "status": "partial",
   "theorems": [
    "c54_long_to_bytes",
    "c54_bytes_to_long_partial",
    "c54_roundtrip_partial",
    "c54_roundtrip_refuted"
   ],
   "note": "Long to bytes exactly; the exact condition under which bytes to Long is the two's complement value, with 128 as a counterexample to the round trip (refuted)."
  },
  {
   "property": "C55",
   "status": "partial",
   "theorems": [
    "c55_bindings_unchanged_partial",
    "c55_value_depends_on_bindings",
    "c55_operands_do_not_interfere_partial",
    "c55_top_level_refuted",
    "c55_defined_twice_refuted",
    "c55_functions_see_the_caller_refuted"
   ],
   "note": "In every scope with a binding evaluation leaves all bindings unchanged; false at the outermost scope, for identifiers defined twice and for functions (dynamic scope), all refuted."
  },
  {
   "property": "C56",
   "status": "partial",
   "theorems": [
    "c56_if",
    "c56_untaken_branch_is_ignored",
    "c56_and_or_decided",
    "c56_and_or_undecided",
    "c56_defaults_refuted"
   ],
   "note": "Laziness of if, && and || for every expression; the default of getOrElse is evaluated eagerly (refuted)."
  },
  {
   "property": "C57",
   "status": "proved",
   "theorems": [
    "c57_construction",
    "c57_checked_arithmetic",
    "c57_remainder_and_negation",
    "c57_bit_operations",
    "c57_bytes_roundtrip",
    "c57_bytes_in_range",
    "c57_short_bytes_accepted"
   ],
   "note": "256-bit integers stay in range and arithmetic is exact"
  },
  {
   "property": "C58",
   "status": "partial",
   "theorems": [
    "c58_peer_addr_roundtrip",
    "c58_peer_feature_roundtrip",
    "c58_unknown_feature",
    "c58_protocol_version_roundtrip",
    "c58_peer_spec_roundtrip",
    "c58_empty_agent_refuted",
    "c58_port_dropped_refuted"
   ],
   "note": "Round trips of addresses, features, versions and specifications; an empty agent name is written but not read, and a declared address whose port is out of range is read as no address (both refuted)."
  },
  {
   "property": "C59",
   "status": "proved",
   "theorems": [
    "c59_all_hints",
    "c59_no_hint_lost"
   ],
   "note": "Multi-signature hints are kept per input"
  },
  {
   "property": "C60",
   "status": "partial",
   "theorems": [
    "c60_distributed_signing_partial",
    "c60_compound_branch_refuted",
    "c60_surplus_signer_refuted",
    "c60_repeated_key_refuted"
   ],
   "note": "Distributed signing completes for every proposition provable in exactly one way with leaf alternatives; fails for compound, surplus and repeated alternatives (refuted)."
  },
  {
   "property": "C61",
   "status": "proved",
   "theorems": [
    "c61_context_complete",
    "c61_input_box",
    "c61_make_context",
    "c61_same_context"
   ],
   "note": "Transaction context is complete"
  },
  {
   "property": "C62",
   "status": "partial",
   "theorems": [
    "c62_signed_tx",
    "c62_signed_verifies_partial",
    "c62_reduced_same",
    "c62_p2pk_agrees"
   ],
   "note": "Signing yields a transaction with the same parts whose inputs all verify, under the conditions of C10 (which are necessary)."
  },
  {
   "property": "C63",
   "status": "partial",
   "theorems": [
    "c63_proof_roundtrip",
    "c63_extension_roundtrip",
    "c63_empty_proof_refuted",
    "c63_long_proof_refuted",
    "c63_full_extension_refuted"
   ],
   "note": "Round trips within the bounds of the length fields; empty proofs, proofs of 65536 bytes and 256 variables are lost (refuted)."
  },
  {
   "property": "C64",
   "status": "partial",
   "theorems": [
    "c64_estimate_refuted"
   ],
   "note": "False for every builder: the estimate is 54 bytes per input too small (refuted); the exact difference is part of the statement."
  },
  {
   "property": "C65",
   "status": "partial",
   "theorems": [
    "c65_header_ignored_refuted",
    "c65_honest_proof_rejected_refuted",
    "c65_interlinks_only_partial"
   ],
   "note": "False: the check ignores the header, and rejects honest proofs (refuted); proved for extensions of interlinks alone."
  },
  {
   "property": "C66",
   "status": "partial",
   "theorems": [
    "c66_prove_valid",
    "c66_zero_m_refuted"
   ],
   "note": "Validity, suffix, prefix and level content for every well-formed chain with k, m at least 1 and enough blocks; m = 0 or a single block panics (refuted)."
  },
  {
   "property": "C67",
   "status": "proved",
   "theorems": [
    "c67_popow_header_roundtrip",
    "c67_nipopow_proof_roundtrip"
   ],
   "note": "NIPoPoW proof serialization round trip"
  },
  {
   "property": "C68",
   "status": "proved",
   "theorems": [
    "c68_lookup_after_history",
    "c68_results"
   ],
   "note": "In-memory peer database is a map"
  },
  {
   "property": "C69",
   "status": "partial",
   "theorems": [
    "c69_proposition_partial",
    "c69_proposition_inline",
    "c69_inline_refuted",
    "c69_no_panic"
   ],
   "note": "For every root without inline constants the proposition is the root with placeholders replaced; what happens to inline constants is described exactly and refutes the general claim. Asking never panics."
  },
  {
   "property": "C70",
   "status": "partial",
   "theorems": [
    "c70_reg_name_roundtrip",
    "c70_reg_name_exact",
    "c70_reg_name_panics_refuted"
   ],
   "note": "Names accepted and refused exactly; one two-byte character panics (refuted)."
  },
  {
   "property": "C71",
   "status": "proved",
   "theorems": [
    "c71_reduced_roundtrip"
   ],
   "note": "A reduced transaction survives the trip to the offline signer"
  },
  {
   "property": "C72",
   "status": "partial",
   "theorems": [
    "c72_token_table_refuted",
    "c72_token_table"
   ],
   "note": "Positions are right when the table has no repeated identifier; with repetitions they name other tokens (refuted)."
  },
  {
   "property": "C73",
   "status": "partial",
   "theorems": [
    "c73_ledger_bytes_partial",
    "c73_length_refuted"
   ],
   "note": "Exact bytes for paths shorter than 256 components; a path of 256 is announced as empty (refuted)."
  },
  {
   "property": "C74",
   "status": "partial",
   "theorems": [
    "c74_roundtrip",
    "c74_accepted",
    "c74_tuple_refuted",
    "c74_address"
   ],
   "note": "Round trip, acceptance and addresses; a Diffie-Hellman secret is not checked against its tuple (refuted)."
  },
  {
   "property": "C76",
   "status": "partial",
   "theorems": [
    "c76_terminates_refuted",
    "c76_terminates_partial",
    "c76_steps_suffice_partial",
    "c76_redefined_refuted",
    "c76_bound_once_refuted"
   ],
   "note": "Terminates for every script without deserialization whose functions are called where written or by earlier identifiers (c76_terminates_partial, c76_steps_suffice_partial). False in general: self-deserialization (c76_terminates_refuted), a function defined twice that calls itself (c76_redefined_refuted, thirty bytes), self-application through a conditional with every identifier bound once (c76_bound_once_refuted). Missing: a wider class with functions as results."
  },
  {
   "property": "C77",
   "status": "proved",
   "theorems": [
    "c77_more_steps",
    "c77_one_result",
    "c77_one_reduction"
   ],
   "note": "The result of evaluation is unique"
  },
  {
   "property": "C78",
   "status": "proved",
   "theorems": [
    "c78_equality",
    "c78_collections",
    "c78_constants"
   ],
   "note": "Equality in scripts is equality of values"
  },
  {
   "property": "C80",
   "status": "proved",
   "theorems": [
    "c80_not_permitted",
    "c80_insert_update",
    "c80_remove",
    "c80_update_operations",
    "c80_update_digest",
    "c80_lookups",
    "c80_get_many",
    "c80_permissions_told"
   ],
   "note": "Authenticated trees change only as permitted and proved"
  },
  {
   "property": "C81",
   "status": "partial",
   "theorems": [
    "c81_expression",
    "c81_constant",
    "c81_script",
    "c81_tree",
    "c81_box",
    "c81_transaction_partial",
    "c81_transaction_refuted"
   ],
   "note": "For expressions, constants, scripts, trees and boxes read from any bytes; for transactions when no input carries context variables, refuted otherwise."
  },
  {
   "property": "C82",
   "status": "proved",
   "theorems": [
    "c82_expression",
    "c82_constant",
    "c82_tree",
    "c82_box",
    "c82_transaction"
   ],
   "note": "Reading untrusted bytes never panics"
  },
  {
   "property": "C75",
   "status": "partial",
   "theorems": [
    "c75_eval_partial",
    "c75_reduce_partial",
    "c75_read_script_partial",
    "c75_result_type_refuted",
    "c75_print_rebuild_refuted",
    "c75_print_items_refuted",
    "c75_print_indent_refuted",
    "c75_subst_constants_refuted",
    "c75_any_script_partial"
   ],
   "note": "No panic for every script read from bytes, with or without a constant store, without substConstants; the reducer panics exactly for results that are not propositions or scripts that cannot be printed. Four refutations show the exceptions are real."
  },
  {
   "property": "C83",
   "status": "partial",
   "theorems": [
    "c83_context",
    "c83_context_properties",
    "c83_self_index",
    "c83_header",
    "c83_pre_header",
    "c83_box_properties",
    "c83_box",
    "c83_register",
    "c83_self_index_of_input",
    "c83_register_type_refuted",
    "c83_state_root_refuted",
    "c83_context_property_refuted"
   ],
   "note": "Every read is described for every context; the declared register type, the state root of a header and five context properties do not behave as declared (refuted)."
  },
  {
   "property": "C84",
   "status": "partial",
   "theorems": [
    "c84_booleans",
    "c84_negation",
    "c84_binary",
    "c84_sigma_and",
    "c84_sigma_or",
    "c84_at_least_partial",
    "c84_bool_to_sigma",
    "c84_at_least_refuted"
   ],
   "note": "All connectives for every list; atLeast when there are at least two propositions and the bound is between zero and their number, an error otherwise (refuted)."
  },
  {
   "property": "C85",
   "status": "proved",
   "theorems": [
    "c85_option",
    "c85_option_map",
    "c85_option_filter",
    "c85_tuple",
    "c85_select"
   ],
   "note": "Options and tuples"
  },
  {
   "property": "C86",
   "status": "partial",
   "theorems": [
    "c86_exponentiate",
    "c86_multiply",
    "c86_generator",
    "c86_negate",
    "c86_encode_decode",
    "c86_hashes",
    "c86_prove_dlog",
    "c86_prove_dh_tuple",
    "c86_xor",
    "c86_global_xor",
    "c86_xor_symmetric_refuted",
    "c86_decode_refuted"
   ],
   "note": "All listed operations; xor is not symmetric, Global.xor swaps operands, decodePoint ignores trailing bytes (refuted)."
  },
  {
   "property": "C87",
   "status": "partial",
   "theorems": [
    "c87_variable",
    "c87_undefined",
    "c87_block",
    "c87_apply",
    "c87_arity_refuted"
   ],
   "note": "Variables, blocks and application; the number of arguments is not checked (refuted)."
  },
  {
   "property": "C88",
   "status": "partial",
   "theorems": [
    "c88_substitute",
    "c88_refused",
    "c88_bytes_refuted"
   ],
   "note": "Result and refusals for every script, position list and value list; Byte values cannot be substituted (refuted)."
  },
  {
   "property": "C89",
   "status": "proved",
   "theorems": [
    "c89_get_var",
    "c89_execute_var",
    "c89_execute_register",
    "c89_register_default",
    "c89_written_script"
   ],
   "note": "Context variables and executed scripts"
  },
  {
   "property": "C90",
   "status": "proved",
   "theorems": [
    "c90_token",
    "c90_candidate",
    "c90_box",
    "c90_input",
    "c90_unsigned_transaction",
    "c90_transaction",
    "c90_member_order",
    "c90_unknown_members",
    "c90_scripts",
    "c90_registers",
    "c90_constants"
   ],
   "note": "JSON of boxes and transactions is lossless"
  },
  {
   "property": "C91",
   "status": "partial",
   "theorems": [
    "c91_box",
    "c91_box_identifier",
    "c91_candidate",
    "c91_input",
    "c91_transaction",
    "c91_unsigned_transaction",
    "c91_output_place_refuted",
    "c91_last_register",
    "c91_last_variable"
   ],
   "note": "Identifiers and re-reading for every accepted document; the place the outputs of a transaction document claim for themselves is not compared (refuted)."
  },
  {
   "property": "C92",
   "status": "partial",
   "theorems": [
    "c92_proposition",
    "c92_proposition_accepted",
    "c92_nesting",
    "c92_secret",
    "c92_secret_accepted",
    "c92_hint",
    "c92_hint_proofs",
    "c92_hint_accepted",
    "c92_hints_bag",
    "c92_header",
    "c92_header_refuted",
    "c92_header_bytes",
    "c92_header_id_refuted",
    "c92_constant_refuted",
    "c92_position_refuted",
    "c92_merkle",
    "c92_merkle_accepted",
    "c92_batch",
    "c92_batch_accepted"
   ],
   "note": "Round trips and acceptance for every value; a header without a distance, which every header of version 2 is, does not survive; identifiers of headers and the operation of constants are not checked; the empty position is refused (all refuted)."
  },
  {
   "property": "C93",
   "status": "partial",
   "theorems": [
    "c93_amount",
    "c93_integer",
    "c93_hex",
    "c93_no_panic",
    "c93_hint_no_panic",
    "c93_register_name_refuted",
    "c93_votes_refuted",
    "c93_threshold_refuted",
    "c93_value_bounds_refuted"
   ],
   "note": "Exactness for every number and text; no panic for every document with plain member names. Four refutations show which documents panic or leave the bounds."
  },
  {
   "property": "C94",
   "status": "partial",
   "theorems": [
    "c94_reduction",
    "c94_reduces",
    "c94_steps",
    "c94_accepted",
    "c94_refused",
    "c94_not_signed",
    "c94_spend_partial",
    "c94_time_lock",
    "c94_time_lock_sign",
    "c94_time_lock_spent",
    "c94_hash_lock"
   ],
   "note": "Soundness, refusal and both contracts for everything; completeness of signing under the conditions of C10 (c94_spend_partial), which are necessary."
  },
  {
   "property": "C95",
   "status": "partial",
   "theorems": [
    "c95_verify_partial",
    "c95_threshold_refuted"
   ],
   "note": "For every received transaction and boxes, outside the exceptions named in the statement (c95_verify_partial); each exception is real (C75, c95_threshold_refuted)."
  },
  {
   "property": "C96",
   "status": "proved",
   "theorems": [
    "c96_selection_found",
    "c96_selection_found_refuted"
   ],
   "note": "Proved for offers with at most 122 kinds of tokens; refuted for 123."
  },
  {
   "property": "C97",
   "status": "partial",
   "theorems": [
    "c97_no_panic_tokens_partial",
    "c97_no_panic_partial",
    "c97_operators_refuted",
    "c97_describe_refuted"
   ],
   "note": "Proved for every source without -, * and / outside comments (c97_no_panic_tokens_partial, c97_no_panic_partial); every arithmetic source with one of them panics (c97_operators_refuted), and so does describing an error at the start of the source (c97_describe_refuted)."
  },
  {
   "property": "C98",
   "status": "partial",
   "theorems": [
    "c98_sound",
    "c98_sound_whole",
    "c98_exact",
    "c98_script",
    "c98_value",
    "c98_unspendable_refuted",
    "c98_ignored_refuted",
    "c98_position_refuted",
    "c98_ill_typed_refuted",
    "c98_grouping",
    "c98_grouping_unique"
   ],
   "note": "Soundness for every source (c98_sound), for the whole source without definitions, minus and parentheses (c98_sound_whole); exactly which sums compile, in any layout and with any comments (c98_exact); how + - * / are grouped (c98_grouping, c98_grouping_unique); script and value (c98_script, c98_value). Refuted: statements are ignored, HEIGHT is known only in some places, ill-typed sums compile, no compiled script can be satisfied (c98_*_refuted)."
  },
  {
   "property": "C99",
   "status": "partial",
   "theorems": [
    "c99_lossless",
    "c99_error_positions",
    "c99_count",
    "c99_exponential_refuted"
   ],
   "note": "Losslessness and error positions proved for every source; the work of typing is exponential in the number of terms (c99_exponential_refuted)."
  },
  {
   "property": "C100",
   "status": "partial",
   "theorems": [
    "c100_faithful",
    "c100_accepted_partial",
    "c100_reserved_refuted",
    "c100_enough"
   ],
   "note": "Input that is accepted and holds no unreadable script reserves no more elements than it has bytes; malformed input, and scripts kept as unreadable, reserve what they announce: six bytes reserve 2^32 - 1 expressions (c100_reserved_refuted)."
  },
  {
   "property": "C102",
   "status": "proved",
   "theorems": [
    "c102_sound",
    "c102_complete"
   ],
   "note": "Soundness for every network and schedule; completeness for networks that behave the same each time, without timeout."
  },
  {
   "property": "C103",
   "status": "partial",
   "theorems": [
    "c103_progress",
    "c103_bounded",
    "c103_after_timeout",
    "c103_returns",
    "c103_unresolvable_refuted",
    "c103_portless_refuted"
   ],
   "note": "Proved for seeds whose hosts have addresses and whose URLs can carry a port. A seed whose host does not resolve makes its request task panic, and discovery never returns, not even after the timeout (c103_unresolvable_refuted); a seed such as file:///x panics at once (c103_portless_refuted)."
  },
  {
   "property": "C104",
   "status": "partial",
   "theorems": [
    "c104_at_most",
    "c104_all_asked",
    "c104_twice_refuted",
    "c104_parallel_refuted"
   ],
   "note": "Each node is asked at most once, a seed at most twice; a seed listed by another seed before it has answered is asked twice (c104_twice_refuted); the number of request tasks is not limited (c104_parallel_refuted)."
  },
  {
   "property": "C105",
   "status": "partial",
   "theorems": [
    "c105_three_digits_partial",
    "c105_version_refuted"
   ],
   "note": "Right for single-digit major and minor numbers with a three-digit patch number; 4.0.13 passes and 10.0.0 does not (c105_version_refuted)."
  },
  {
   "property": "C101",
   "status": "partial",
   "theorems": [
    "c101_limited_refuted",
    "c101_scripts_refuted",
    "c101_types_refuted",
    "c101_bytes_partial",
    "c101_eval_refuted"
   ],
   "note": "There is no limit: for every depth there are bytes two longer than it that are read, as an expression, as a script and as a type, and evaluated, with more nested calls than that depth (c101_limited_refuted, c101_scripts_refuted, c101_types_refuted, c101_eval_refuted). The depth is at most the number of bytes (c101_bytes_partial)."
  },
  {
   "property": "C79",
   "status": "partial",
   "theorems": [
    "c79_eval_partial",
    "c79_read_partial",
    "c79_proposition_partial",
    "c79_reduce_partial",
    "c79_if_refuted",
    "c79_fold_refuted",
    "c79_items_refuted",
    "c79_default_refuted",
    "c79_register_refuted",
    "c79_identifier_refuted",
    "c79_flat_map_refuted",
    "c79_state_root_refuted"
   ],
   "note": "For every script that keeps clear of the exceptions named in the statement (c79_eval_partial; from bytes, c79_read_partial; reduction does not panic, c79_reduce_partial). Each exception is shown to be real by bytes that are read and evaluate to a value of another type (c79_*_refuted). Box constants in the constant store are left out."
  },
  {
   "property": "C106",
   "status": "proved",
   "theorems": [
    "c106_complete",
    "c106_sound",
    "c106_kept",
    "c106_no_panic"
   ],
   "note": "Proved: sound for every network (c106_sound, c106_kept, c106_no_panic), complete for networks that do not change (c106_complete)."
  },
  {
   "property": "C107",
   "status": "partial",
   "theorems": [
    "c107_silence_refuted",
    "c107_lone_seed_refuted",
    "c107_progress_partial",
    "c107_lost_refuted",
    "c107_timeout_refuted",
    "c107_small_limit_refuted"
   ],
   "note": "Only: when nothing can happen any more a call has returned, unless requests are left in its heap, the timeout has struck or a request got lost (c107_progress_partial). Each exception is real: the heap is only worked through when a message arrives, so a scan from a single live seed never returns (c107_lone_seed_refuted, c107_silence_refuted); a failure of /peers/all in the HTTP client other than a timeout sends no message (c107_lost_refuted); a timeout while the peers of a node are to be asked for leaves the count above zero for ever (c107_timeout_refuted); with a limit of one or two nothing is asked after the first request (c107_small_limit_refuted)."
  },
  {
   "property": "C108",
   "status": "partial",
   "theorems": [
    "c108_limit",
    "c108_once",
    "c108_again_refuted"
   ],
   "note": "The limit for every call (c108_limit), once each for the first call on a scan (c108_once). A later call sends its first request without a look at the nodes visited (c108_again_refuted)."
  },
  {
   "property": "C109",
   "status": "proved",
   "theorems": [
    "c109_refines",
    "c109_no_panic",
    "c109_slots",
    "c109_sorted"
   ],
   "note": "The heap of timers is a priority queue with removal"
  },
  {
   "property": "C110",
   "status": "partial",
   "theorems": [
    "c110_exact",
    "c110_never_early",
    "c110_fires",
    "c110_gone",
    "c110_no_panic",
    "c110_next",
    "c110_woken",
    "c110_reset_gone_refuted",
    "c110_past_refuted",
    "c110_wrap_refuted"
   ],
   "note": "Exact answer of every poll while the timer exists and after it is dropped, wake-ups, next event, no panics, for histories with fewer than 2^30 resets of a delay between two polls of the timer. A delay that fired stays done when it is reset after the timer was dropped (c110_reset_gone_refuted); 2^30 resets revive the old instant (c110_wrap_refuted); a delay reset to the past is still pending at the next poll, against the documentation (c110_past_refuted)."
  },
  {
   "property": "C111",
   "status": "partial",
   "theorems": [
    "c111_never_early",
    "c111_bounded",
    "c111_on_time_partial",
    "c111_late_refuted",
    "c111_sleep_refuted"
   ],
   "note": "Never early and at most twenty callbacks, in every run; on time while at most 19 callbacks are pending (c111_on_time_partial). With 19 delays of an hour pending, one of a second fires an hour late (c111_late_refuted); a delay above 2^31 - 1 ms makes the callback run without pause (c111_sleep_refuted)."
  },
  {
   "property": "C112",
   "status": "partial",
   "theorems": [
    "c112_next",
    "c112_fraction_refuted",
    "c112_zero_refuted",
    "c112_tick",
    "c112_gone_refuted"
   ],
   "note": "Proved for periods of whole milliseconds and an existing timer. Other periods may give an instant that has passed (c112_fraction_refuted), a period of zero panics (c112_zero_refuted), and once the timer is gone the stream is ready at every poll (c112_gone_refuted)."
  },
  {
   "property": "C113",
   "status": "partial",
   "theorems": [
    "c113_read_partial",
    "c113_read_expr_partial",
    "c113_accepted_partial",
    "c113_context",
    "c113_unchecked_refuted",
    "c113_binary_refuted",
    "c113_function_refuted",
    "c113_function_default_refuted"
   ],
   "note": "At every node of every script that was read, for the operations whose constructors the reader calls (c113_read_partial, c113_read_expr_partial), where a function is taken for its result; what follows the rules is accepted unless it gives a function (c113_accepted_partial). Twelve operations and all binary ones are read with operands of any type (c113_unchecked_refuted, c113_binary_refuted); functions pass for their results (c113_function_refuted) and are refused as defaults (c113_function_default_refuted)."
  },
  {
   "property": "C114",
   "status": "partial",
   "theorems": [
    "c114_words",
    "c114_letters_partial",
    "c114_exact",
    "c114_refused",
    "c114_generate",
    "c114_injective",
    "c114_french_refuted",
    "c114_language",
    "c114_lists",
    "c114_own_list",
    "c114_seed",
    "c114_seed_normal"
   ],
   "note": "Everything for every language, entropy and hash with 32 bytes, and lists, delimiters and seeds compared with BIP-39 (c114_lists, c114_own_list, c114_seed, c114_seed_normal), except that the words are made of letters only (c114_letters_partial): the French list begins with a byte order mark, which becomes part of its first word (c114_french_refuted)."
  },
  {
   "property": "C115",
   "status": "partial",
   "theorems": [
    "c115_token",
    "c115_candidate",
    "c115_box",
    "c115_unsigned_transaction",
    "c115_transaction",
    "c115_js_candidate",
    "c115_js_box",
    "c115_js_unsigned_transaction",
    "c115_js_transaction",
    "c115_js_ordered",
    "c115_js_order_refuted",
    "c115_js_refused_refuted",
    "c115_plain_refuted"
   ],
   "note": "Round trips for everything that can be written; through JavaScript for every box, and for transactions whose variables are in ascending order (c115_js_ordered); c115_js_unsigned_transaction and c115_js_transaction say what comes back otherwise. A transaction with variables in another order comes back with another message to sign (c115_js_order_refuted) or is refused (c115_js_refused_refuted)."
  },
  {
   "property": "C116",
   "status": "partial",
   "theorems": [
    "c116_from_js",
    "c116_accepted_partial",
    "c116_roundtrip_partial",
    "c116_no_panic_partial",
    "c116_tuple_refuted",
    "c116_boolean_refuted",
    "c116_small_refuted",
    "c116_number_refuted",
    "c116_empty_refuted",
    "c116_mixed_refuted"
   ],
   "note": "Every documented value is converted to what it means (c116_from_js). The converse for exact numbers and results with a type (c116_accepted_partial), round trips for Int, Long, BigInt, bytes and non-empty collections of these (c116_roundtrip_partial), no panics without empty arrays and short or long tuples (c116_no_panic_partial). Each exception is real: c116_tuple_refuted, c116_boolean_refuted, c116_small_refuted, c116_number_refuted, c116_empty_refuted, c116_mixed_refuted."
  },
  {
   "property": "C117",
   "status": "partial",
   "theorems": [
    "c117_extract",
    "c117_exact",
    "c117_tuple_partial",
    "c117_more_items_refuted",
    "c117_empty_refuted"
   ],
   "note": "Values of the type are given out for every Rust type (c117_extract); nothing else for types without tuples and values without empty collections and options (c117_exact); with tuples up to further items (c117_tuple_partial). A triple passes for a pair (c117_more_items_refuted), an empty collection for any vector (c117_empty_refuted)."
  },
  {
   "property": "C118",
   "status": "partial",
   "theorems": [
    "c118_stream_is_a_chain",
    "c118_stream_is_provable",
    "c118_stream_resumes",
    "c118_stream_goes_on_partial",
    "c118_zero_index_refuted"
   ],
   "note": "Everything for every draw, secret, hash function and length (c118_stream_is_a_chain, c118_stream_is_provable, c118_stream_resumes), when the floating-point levels are between 0 and 253. That the stream goes on is proved for hash functions that never select index zero and never need to be hashed again (c118_stream_goes_on_partial); when the first nonce selects index zero the miner panics (c118_zero_index_refuted)."
  },
  {
   "property": "C119",
   "status": "partial",
   "theorems": [
    "c119_positions_inside",
    "c119_positions_name_nodes",
    "c119_positions_nest",
    "c119_prints",
    "c119_stored_constants_refuted",
    "c119_same_text_refuted",
    "c119_no_position_refuted",
    "c119_operand_outside_refuted",
    "c119_indentation_refuted"
   ],
   "note": "Positions lie inside the text, name their node (or what follows its first operand for indexing, map, exists, fold and filter) and nest, for every script and every text of constants and method names (c119_positions_inside, c119_positions_name_nodes, c119_positions_nest); c119_prints says which scripts have a text. Refuted: every node has a position (c119_no_position_refuted), a node contains its operands (c119_operand_outside_refuted), different scripts have different texts (c119_same_text_refuted, c119_stored_constants_refuted), the text of a node does not depend on what was printed before (c119_indentation_refuted)."
  },
  {
   "property": "C120",
   "status": "partial",
   "theorems": [
    "c120_report_points_into_text",
    "c120_report_panics_iff",
    "c120_unplaced_refuted",
    "c120_shown_once_partial",
    "c120_second_report_refuted"
   ],
   "note": "The position and the message of every report (c120_report_points_into_text) and when there is no report but a panic (c120_report_panics_iff). One report can be shown (c120_shown_once_partial), a second one in the same process panics (c120_second_report_refuted, given that the error library refuses a second hook, as it documents; its source is not in the repository). The position of an enclosing expression is not used when the innermost one has none (c120_unplaced_refuted)."
  },
  {
   "property": "C121",
   "status": "partial",
   "theorems": [
    "c121_message_signed",
    "c121_message_refused",
    "c121_message_bound",
    "c121_message_spends",
    "c121_add_secret_partial",
    "c121_add_secret_refuted",
    "c121_mnemonic",
    "c121_separation_refuted"
   ],
   "note": "Signing and refusing (c121_message_signed, c121_message_refused), one signature for two messages is a hash collision (c121_message_bound), wallets from mnemonics (c121_mnemonic). Refuted: message signatures are usable as spending proofs because the signed bytes carry no tag (c121_message_spends for every transaction, c121_separation_refuted). Adding a secret keeps what could be signed for the propositions of C10 (c121_add_secret_partial); with an alternative listed twice it does not (c121_add_secret_refuted)."
  },
  {
   "property": "C122",
   "status": "partial",
   "theorems": [
    "c122_commitments",
    "c122_reduced_same",
    "c122_extracted",
    "c122_input_alone",
    "c122_public_hints_give_key",
    "c122_public_hints_refuted"
   ],
   "note": "Exactly the pairs for the wallet's own leaves (c122_commitments), same from the reduction (c122_reduced_same), extraction per input (c122_extracted), one input alone (c122_input_alone). Refuted: the part of the bag called public contains the randomness of the wallet's own commitments, which with the published proof gives the key (c122_public_hints_give_key, c122_public_hints_refuted)."
  },
  {
   "property": "C123",
   "status": "partial",
   "theorems": [
    "c123_value_semantics",
    "c123_no_leak",
    "c123_collection_is_list",
    "c123_stale_pointer_refuted",
    "c123_null_reported_refuted",
    "c123_bounded",
    "c123_strings_leak_refuted"
   ],
   "note": "Value semantics for every allocator and every sequence of calls that uses no deleted object (c123_value_semantics), no leaks (c123_no_leak), collections as lists (c123_collection_is_list), bounded lists (c123_bounded). A kept pointer can silently denote a later object (c123_stale_pointer_refuted). Refuted: a null collection is reported; asking for its length ends the process (c123_null_reported_refuted). Refuted: nothing leaks, for the list of peers, whose block is never freed (c123_strings_leak_refuted). Copies of a pointer in two variables are not part of the specification."
  },
  {
   "property": "C124",
   "status": "partial",
   "theorems": [
    "c124_completed_once",
    "c124_outcome_delivered",
    "c124_left_alone",
    "c124_abort_calls",
    "c124_abort_stops",
    "c124_released_once_partial",
    "c124_released_once_refuted",
    "c124_always_called_refuted",
    "c124_started",
    "c124_discovery_started",
    "c124_null_handle_refuted"
   ],
   "note": "At most one completion, with one of response and error, delivered as the request ended (c124_completed_once, c124_outcome_delivered); a request left alone makes its one callback (c124_left_alone); each abort calls back once (c124_abort_calls); no completion after an abort outside a poll (c124_abort_stops); starting (c124_started, c124_discovery_started). One release for a single abort of a waiting request (c124_released_once_partial). Refuted: abort after the end or during a poll makes a second callback with the same data (c124_released_once_refuted); deleting the runtime loses the request without a callback (c124_always_called_refuted); a null pointer for the handle is written through (c124_null_handle_refuted). The behaviour of Abortable and of the runtime is taken from their documentation."
  },
  {
   "property": "C125",
   "status": "proved",
   "theorems": [
    "c125_sleeps_when_idle",
    "c125_no_lost_delay",
    "c125_fired_when_due",
    "c125_current",
    "c125_fires",
    "c125_stops",
    "c125_one_timer",
    "c125_one_helper",
    "c125_returns",
    "c125_found"
   ],
   "note": "Sleeping only when idle, nothing lost, nothing early, only the last time kept, firing and stopping within a bounded number of own steps from every reachable state (c125_sleeps_when_idle, c125_no_lost_delay, c125_fired_when_due, c125_current, c125_fires, c125_stops); one default timer, losers stopped, asking ends (c125_one_timer, c125_one_helper, c125_returns, c125_found). The heap and the list are abstract here (see HeapModel, TimerModel); park, unpark and AtomicWaker by their documentation."
  },
  {
   "property": "C126",
   "status": "partial",
   "theorems": [
    "c126_lossless",
    "c126_reads",
    "c126_rewritten",
    "c126_quiet",
    "c126_quiet_refuted",
    "c126_reserved_refuted",
    "c126_canonical_refuted",
    "c126_long_list_refuted"
   ],
   "note": "Lossless, in range and rewritable for every item codec (c126_lossless, c126_reads, c126_rewritten), and quiet where 2^32 - 1 items can be addressed (c126_quiet). Refuted: five bytes make the reader panic on 32-bit machines (c126_quiet_refuted) and reserve memory for 2^32 - 1 items on others (c126_reserved_refuted); encodings are not unique (c126_canonical_refuted); lists of 2^32 items or more are cut silently (c126_long_list_refuted)."
  },
  {
   "property": "C127",
   "status": "partial",
   "theorems": [
    "c127_answer_passed",
    "c127_limit_exact",
    "c127_never_early",
    "c127_times_out",
    "c127_woken",
    "c127_gone",
    "c127_never_early_refuted",
    "c127_stream_exact",
    "c127_stream_spacing",
    "c127_stream_items",
    "c127_stream_spins_refuted"
   ],
   "note": "Proved for histories in which the timer exists (c127_limit_exact, c127_never_early, c127_times_out, c127_woken, c127_stream_exact, c127_stream_spacing); answers are passed on in all histories (c127_answer_passed, c127_stream_items). Refuted without a timer: every pending future times out at once (c127_gone, c127_never_early_refuted) and a silent stream times out at every poll (c127_stream_spins_refuted)."
  },
  {
   "property": "C128",
   "status": "partial",
   "theorems": [
    "c128_first_error",
    "c128_parts",
    "c128_accepted",
    "c128_headers",
    "c128_defaults",
    "c128_default_values_refuted",
    "c128_started",
    "c128_default_limit",
    "c128_sent",
    "c128_sends",
    "c128_built",
    "c128_sent_headers",
    "c128_timeout_wraps",
    "c128_timeout_refuted",
    "c128_clone",
    "c128_http",
    "c128_http_keeps",
    "c128_http_loses",
    "c128_http_back_refuted",
    "c128_outcome",
    "c128_body_limit_refuted",
    "c128_response",
    "c128_status",
    "c128_no_cors_refuted"
   ],
   "note": "Building, defaults, sending and receiving are proved for all calls, maps and parsers (c128_first_error, c128_accepted, c128_parts, c128_headers, c128_built, c128_defaults, c128_started, c128_default_limit, c128_sent, c128_sends, c128_sent_headers, c128_outcome, c128_response, c128_status, c128_clone, c128_http, c128_http_keeps). Refuted: time limits from 2^31 milliseconds on abort at once (c128_timeout_wraps, c128_timeout_refuted); limits do not cover the body as documented (c128_body_limit_refuted); of several default values of a name only one is sent (c128_default_values_refuted); without CORS every answer of another site makes the client throw (c128_no_cors_refuted); conversion to the http crate loses limits and modes (c128_http_loses, c128_http_back_refuted)."
  }
 ]
}