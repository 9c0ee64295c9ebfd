# Formal model of sigma-rust in Rocq: design

## 1. What is modelled and how

`/repo` (Rust, pinned commit) is modelled by total Gallina functions, one per Rust
function, in `rocq/theories/`.  Every definition cites the file and lines it models and
says where it simplifies.  Numbers are `Z` (or `N` for bit vectors), with the bounds of
the Rust types explicit: a cast `as u8` is an explicit `mod`, a `checked_*` operation is a
bounds test, a panic (`unwrap`, index out of bounds, arithmetic overflow in a debug
build, `unreachable!`) is the explicit result `Panic`, an `Err(_)` is `Err e`.  Byte strings
are `list Z`; a reader is a function `bytes -> res (A * bytes)`, a writer `A -> res bytes`.
Recursion that the Rust code bounds only by the stack is bounded in the model by fuel;
theorems about results either hold for every fuel or say that enough of it exists.

Files of an area: `XModel.v` definitions only (the model, with citations), `XSpec.v`
specifications, `XProofs.v` and other names lemmas, `XProps.v` the property theorems
(named `cNN_...`, `NN` the property), with `Print Assumptions` and an `Example cNN_hyps_met`
that shows a concrete case meeting the hypotheses.

Specifications (polynomial product modulo the pentanomial, monotone formulas over
secrets, the relation accepted by the sigma protocol, ledger sums, list functions, two's
complement, BIP32, well-formedness of expressions, ...) are defined separately from the
model's helpers.

### Modelled code

| model | Rust sources |
|-------|--------------|
| `VlqModel` | sigma-ser: `vlq_encode.rs`, `zig_zag_encode.rs` |
| `GfModel`, `GfTables` | gf2_192: `gf2_192.rs` (windows, tables, inversion), `gf2_192poly.rs`, `lib.rs` |
| `GroupModel` | ergo-chain-types `ec_point.rs`, ergotree-ir `sigma_protocol/dlog_group.rs` (the curve is abstract, see below) |
| `SigmaModel`, `ProverModel` | ergotree-ir `sigma_protocol/**`, `serialization/sigmaboolean.rs`; ergotree-interpreter `sigma_protocol/{prover, prover/hint, verifier, sig_serializer, fiat_shamir, challenge, unproven_tree, unchecked_tree, proof_tree, dlog_protocol, dht_protocol, gf2_192, wscalar, private_input}.rs` |
| `TypeModel`, `MethodModel` | ergotree-ir `types/*.rs`, `serialization/types.rs` (type descriptors, method tables, unification) |
| `BigIntModel` | ergotree-ir `bigint256.rs` |
| `IrModel`, `EqModel` | ergotree-ir `mir/*.rs` (all nodes, `tpe`, constructors and their checks, derived equality), `ergo_tree.rs`, `ergo_tree/tree_header.rs` |
| `SerModel` | ergotree-ir `serialization/*.rs`: expressions, constants, data, constant store, value store, scripts, registers, boxes |
| `ChainModel` | ergotree-ir `chain/ergo_box.rs`, `chain/ergo_box/**`, `chain/token.rs` |
| `AddressModel` | ergotree-ir `chain/address.rs` with base58 |
| `PrintModel` | ergotree-ir `pretty_printer.rs`, `pretty_printer/print.rs` (which prints succeed; the text is in `PrintTextModel`) |
| `KeyringModel` | `ergo-lib/src/wallet.rs`, `ergo-lib/src/wallet/multi_sig.rs` (`generate_commitments`, `extract_hints`), `sign_message` of `ergo-lib/src/wallet/signing.rs`, message signing and verifying in `bindings/ergo-lib-wasm/src/{wallet,verifier}.rs` and `bindings/ergo-lib-c-core/src/wallet.rs` (without pointers and error conversion) |
| `CHandleModel` | `bindings/ergo-lib-c-core/src/{collections,util,error}.rs`, `bindings/ergo-lib-c/src/{macros,lib}.rs`, `bindings/ergo-lib-c-core/src/rest/c_string_collection.rs` (memory as a finite map with an arbitrary allocator; `slice::from_raw_parts`, `CStr::from_ptr` and copies into caller buffers are not modelled) |
| `RequestModel` | `bindings/ergo-lib-c-core/src/rest/api/{node,callback,request_handle,runtime}.rs`, `node/abortable.rs`, `bindings/ergo-lib-c/src/rest/api/{request_handle,runtime}.rs` (interleaving of two threads; `Abortable` and tokio by their documentation; the requests' contents are not modelled) |
| `HelperModel` | `ergo-rest/src/wasm_timer/timer/global/desktop.rs`, `timer.rs` 366-449, 496-589, `timer/delay.rs` (interleaving of any number of threads; `park`, `unpark`, `AtomicWaker` and sequentially consistent atomics by their documentation; heap and update list as association lists) |
| `ScorexModel` | `sigma-ser/src/scorex_serialize.rs` (any item type as a pair of writer and reader; the allocator is modelled by the number of items that can be addressed only; error types are names) |
| `DeadlineModel` | `ergo-rest/src/wasm_timer/timer/ext.rs` (on top of `TimerModel`; what is inside is represented by its answers) |
| `FetchModel` | `ergo-rest/src/reqwest/wasm/{request,client,body,response}.rs`, `reqwest/util.rs` (header maps by the documentation of the http crate, browsers by the Fetch standard; parsers are parameters; not query strings, form fields and decoding of bodies) |
| `EvalModel` | ergotree-interpreter `eval.rs`, every file of `eval/` except `cost_accum.rs`, `costs.rs` (cost is accumulated without a limit and never reported) |
| `TxModel`, `SignModel` | ergo-lib `chain/transaction/**`, `wallet/tx_context.rs`, `wallet/signing.rs`, `wallet/multi_sig.rs`, prover and verifier entry points |
| `WalletModel` | ergo-lib `wallet/tx_builder.rs`, `wallet/box_selector/**`, `chain/ergo_box/box_builder.rs`, `wallet/miner_fee.rs` |
| `DeriveModel` | ergo-lib `wallet/{derivation_path, ext_secret_key, ext_pub_key, secret_key}.rs` |
| `MerkleModel` | ergo-merkle-tree: all of it |
| `HeaderModel`, `PowModel` | ergo-chain-types `header.rs`, ergo-nipopow `autolykos_pow_scheme.rs` |
| `NipopowModel`, `NipopowSerModel` | ergo-nipopow: `nipopow_algos.rs`, `nipopow_proof.rs`, `nipopow_verifier.rs`, `extensioncandidate.rs` |
| `P2pModel` | ergo-p2p: peer specification, features, versions, in-memory database; `peer_addr.rs` |
| `JsonModel` | serde encodings: ergotree-ir `chain/json/**`, ergo-lib `chain/json/**`, `chain/transaction/input/**`, ergotree-interpreter `json/hint.rs`, ergo-chain-types `json/**`, `header.rs`, `base16_bytes.rs`, ergo-merkle-tree `json.rs` (from the parsed JSON value) |
| `CompilerModel` | ergoscript-compiler: lexer, parser, syntax tree, high-level representation, binder, type assignment, lowering, `compile`, error positions; ergotree-ir `type_check.rs` |
| `AllocModel` | the reservations of ergotree-ir `serialization/serializable.rs` (vectors), `ergo_tree.rs` (constants), `mir/func_value.rs` (arguments) in the readers of `SerModel` |
| `DiscoveryModel` | ergo-rest `api/peer_discovery_internals/non_chrome.rs` (as a transition system), `node_info.rs`; ergo-chain-types `peer_addr.rs` `as_http_url` |
| `ChromeModel` | ergo-rest `api/peer_discovery_internals/chrome.rs` (as a transition system) |
| `HeapModel` | ergo-rest `wasm_timer/timer/heap.rs` |
| `TimerModel` | ergo-rest `wasm_timer/timer.rs`, `timer/delay.rs`, `timer/arc_list.rs` (each call atomic, as in a browser) |
| `BrowserModel` | ergo-rest `wasm_timer/timer/global/wasm.rs` |
| `IntervalModel` | ergo-rest `wasm_timer/timer/interval.rs`, the instants of `wasm_timer/wasm.rs` |
| `MnemonicModel` | ergo-lib `wallet/mnemonic_generator.rs` with `wordlist/*.txt` (`Words*.v`), `wallet/mnemonic.rs` (PBKDF2, SHA-256 and NFKD are arguments) |
| `Eip12Model` | `bindings/ergo-lib-wasm/src/json.rs`, `bindings/ergo-lib-c-core/src/json.rs` (EIP-12 documents; `JSON.parse` and `JSON.stringify` of ECMAScript as far as they touch numbers and the order of keys) |
| `JsConvModel` | `bindings/ergo-lib-wasm/src/ast/js_conv.rs`, ergotree-ir `mir/constant.rs` 581-850 (`TryExtractFrom<Literal>`; the conversions to Digest32, TokenId and ProveDlog are not modelled) |
| `ChainGenModel` | `ergo-chain-generation/src/chain_generation.rs` 40-371, `lib.rs` 31-54 (the random draws are arguments, the miner's secret is a parameter; the one transaction of each block is given by its bytes to sign and its proofs) |
| `PrintTextModel` | ergotree-ir `pretty_printer.rs`, `pretty_printer/print.rs`, `source_span.rs`, `ergo_tree.rs` 236-240; ergotree-interpreter `eval/error.rs` (positions and showing; the texts of constants and the names of methods are parameters, the rendering of a report by `miette` is a parameter, its `set_hook` is modelled by its documented contract) |

### Not modelled

In the ErgoScript compiler: events, markers and the sink of the parser (replaced by functions that return the nodes), the length of the
error tokens of `logos`, the wording of errors and the line lookup in their description. FFI bindings (`bindings/`); network IO (`ergo-rest`, except for the peer discovery of C102-C104: the HTTP client, and the parsing of its answers); PBKDF2, HMAC-SHA512, Blake2b, SHA-256, secp256k1
arithmetic and the AVL+ verifier of `ergo_avltree_rust` (all quantified over, see below);
floating point `log2` in `max_level_of` (an arbitrary level function); the text produced by the
printer; memory and stack consumption, other than the reservations of C100 and the nesting of C101; log output; evaluation cost (accumulated without a limit, reported as zero).
JSON text syntax and the nesting limit of `serde_json` (the model starts from the parsed value), JSON of full blocks, the rest of `ergo-rest`.

### Abstractions (quantified, never axioms)

* **Group.** secp256k1 is replaced by *every* commutative group of prime order with a
  generator and an injective 33-byte encoding (`group`, `group_ok`).  A concrete instance (Z/q under
  addition, `GroupInstance.v`) shows that the record is inhabited and serves in examples.
* **Hashes.** Blake2b256, SHA-256 and HMAC-SHA512 are *every* function from byte strings to byte
  strings (of the right length where it matters).  Collision resistance is never assumed:
  theorems that depend on it return an explicit collision.
* **Randomness.** The prover's random choices are an argument indexed by position; theorems hold for all.
* **Hash maps** are association lists; where iteration order matters it is an argument or a permutation.
* **AVL+ verifier.** `ergo_avltree_rust::BatchAVLVerifier` is an arbitrary function of digest, proof and operations.

## 2. Properties: what is modelled and how each is proved

`proved`: the statement in properties.jsonl is covered for everything it quantifies over.  `partial`: the statement as written is too strong; the note says which part is proved, and theorems named `..._refuted` prove the negation of the rest with a witness.

| id | property | model and proof | status | theorems (file) |
|----|----------|-----------------|--------|-----------------|
| C01 | Unsigned VLQ round trip | `VlqModel`; induction on 7-bit groups, linear arithmetic for zigzag | proved | `c01_unsigned_vlq_roundtrip` (VlqProps.v) |
| C02 | Signed ZigZag/VLQ round trip | `VlqModel`; induction on 7-bit groups, linear arithmetic for zigzag | proved | `c02_signed_vlq_roundtrip` (VlqProps.v) |
| C03 | VLQ reader is bounded and rejects out-of-range narrow values | `VlqModel`; induction on 7-bit groups, linear arithmetic for zigzag | proved | `c03_vlq_reader_bounded`, `c03_vlq_reader_accepts_every_chain`, `c03_narrow_readers_in_range`, `c03_vlq_writer_shortest` (VlqProps.v) |
| C04 | Bit arrays, short strings and options round trip | `VlqModel`; induction on 7-bit groups, linear arithmetic for zigzag | proved | `c04_bits_roundtrip`, `c04_short_string_roundtrip`, `c04_option_roundtrip` (VlqProps.v) |
| C05 | GF(2^192) is a field | `GfModel` with the code's tables; bilinear extension of basis checks, inversion by Frobenius powers | proved | `c05_gf_ring_laws`, `c05_gf_tests`, `c05_gf_no_zero_divisors` (GfProps.v) |
| C06 | GF(2^192) multiplication computes polynomial product modulo the pentanomial | `GfModel` with the code's tables; bilinear extension of basis checks, inversion by Frobenius powers | proved | `c06_gf_mul_is_polynomial_product`, `c06_gf_mul_by_i8_is_polynomial_product`, `c06_remainder_unique` (GfProps.v) |
| C07 | GF(2^192) inversion | `GfModel` with the code's tables; bilinear extension of basis checks, inversion by Frobenius powers | proved | `c07_gf_invert`, `c07_table_power_is_repeated_squaring` (GfProps.v) |
| C08 | Interpolation passes through every given point | `GfModel` (polynomials); Newton invariant by induction on points | proved | `c08_interpolation`, `c08_evaluate_is_polynomial_value`, `c08_interpolation_unique`, `c08_interpolation_length_mismatch` (GfProps.v) |
| C09 | Field element and polynomial byte conversions are inverse | `GfModel` (polynomials); Newton invariant by induction on points | proved | `c09_gf_bytes_roundtrip`, `c09_bytes_gf_roundtrip`, `c09_bytes_are_little_endian`, `c09_short_bytes_refused`, `c09_poly_bytes_roundtrip`, `c09_bytes_poly_roundtrip` (GfProps.v) |
| C10 | Prover completeness | `ProverModel`; invariants of each prover step over proof trees, field interpolation for thresholds | partial | `c10_prover_complete_partial`, `c10_prover_complete_refuted`, `c10_threshold_panics_refuted` (ProverProps.v) |
| C11 | Prover refuses when secrets are insufficient | `ProverModel`; invariants of each prover step over proof trees, field interpolation for thresholds | proved | `c11_prover_refuses` (ProverProps.v) |
| C12 | Verifier acceptance is exactly the sigma-protocol relation | `SigmaModel`; structural induction on propositions and proof trees; malleability by witnesses | proved | `c12_verifier_accepts_exactly_the_relation`, `c12_verifier_on_constants`, `c12_verifier_never_panics`, `c12_threshold_above_children_panics` (SigmaProps.v) |
| C13 | Special soundness of the composed protocol | `SigmaModel`; structural induction on propositions and proof trees; malleability by witnesses | proved | `c13_special_soundness` (SigmaProps.v) |
| C14 | Simulated leaves verify | `SigmaModel`; structural induction on propositions and proof trees; malleability by witnesses | proved | `c14_simulated_leaf_verifies`, `c14_simulation_matches_real` (SigmaProps.v) |
| C15 | Signature encoding round trip | `SigmaModel`; structural induction on propositions and proof trees; malleability by witnesses | proved | `c15_proof_encoding_roundtrip` (SigmaProps.v) |
| C16 | Fiat-Shamir input is injective | `SigmaModel`; structural induction on propositions and proof trees; malleability by witnesses | proved | `c16_fiat_shamir_injective`, `c16_verifier_hashes_that_string` (SigmaProps.v) |
| C17 | Proof bytes are unique (non-malleable) | `SigmaModel`; structural induction on propositions and proof trees; malleability by witnesses | partial | `c17_proof_bytes_unique_refuted`, `c17_response_representation_refuted`, `c17_canonical_form_partial` (SigmaProps.v) |
| C18 | Sigma proposition serialisation round trip | `SigmaModel`; induction on propositions, semantics `provable` | proved | `c18_sigma_proposition_roundtrip`, `c18_parsed_is_well_formed` (SigmaProps.v) |
| C19 | Normalisation preserves the meaning of sigma propositions | `SigmaModel`; induction on propositions, semantics `provable` | proved | `c19_and_or_normalization`, `c19_threshold_normalization` (SigmaProps.v) |
| C20 | Type serialisation round trip | `TypeModel`, `SerModel`; mutual induction on well-formedness (`SerSpec`); refutations by computed bytes | proved | `c20_type_roundtrip`, `c20_function_types_refused`, `c20_parsed_types_reserialize`, `c20_type_encoding_prefix_free`, `c20_type_bytes_canonical_refuted` (TypeProps.v) |
| C21 | Constant serialisation round trip | `TypeModel`, `SerModel`; mutual induction on well-formedness (`SerSpec`); refutations by computed bytes | proved | `c21_constant_roundtrip`, `c21_encoding_injective` (SerProps.v) |
| C22 | Script expression serialisation round trip | `TypeModel`, `SerModel`; mutual induction on well-formedness (`SerSpec`); refutations by computed bytes | partial | `c22_expr_roundtrip`, `c22_encoding_injective`, `c22_bools_operand_refuted` (SerProps.v) |
| C23 | Constant segregation is transparent | `TypeModel`, `SerModel`; mutual induction on well-formedness (`SerSpec`); refutations by computed bytes | proved | `c23_proposition_of_new`, `c23_template_independent` (SerProps.v) |
| C24 | Constant substitution touches only its target | `TypeModel`, `SerModel`; mutual induction on well-formedness (`SerSpec`); refutations by computed bytes | proved | `c24_with_constant`, `c24_unparsed`, `c24_proposition` (SerProps.v) |
| C25 | ErgoTree bytes are preserved | `TypeModel`, `SerModel`; mutual induction on well-formedness (`SerSpec`); refutations by computed bytes | partial | `c25_unparsed_partial`, `c25_written_partial`, `c25_header_bits_refuted`, `c25_leftover_refuted`, `c25_embedded_refuted` (SerProps.v) |
| C26 | Box value and token amount arithmetic never leaves its range | `ChainModel`; arithmetic and list reasoning | partial | `c26_box_value_new`, `c26_box_value_ops`, `c26_box_value_mul_u32`, `c26_box_value_sum`, `c26_token_amounts`, `c26_mul_zero_refuted`, `c26_text_refuted` (ChainProps.v) |
| C27 | Box serialisation round trip and identity | `SerModel`; mutual induction as for C22 | partial | `c27_box_roundtrip`, `c27_candidate_roundtrip`, `c27_id_identifies`, `c27_received_bytes_refuted` (ChainProps.v) |
| C28 | Transaction serialisation round trip | `TxModel`; composition of the expression and box codecs | proved | `c28_tx_roundtrip`, `c28_encoding_injective` (TxProps.v) |
| C29 | Transaction id does not depend on proofs | `TxModel`; composition of the expression and box codecs | proved | `c29_signed_id`, `c29_signed_exists`, `c29_proofs_irrelevant`, `c29_outputs`, `c29_id_identifies` (TxProps.v) |
| C30 | Built transactions conserve value | `WalletModel`; invariants of the builder's and selector's loops | partial | `c30_structure`, `c30_variables`, `c30_data`, `c30_value_partial`, `c30_value_refuted` (WalletProps.v) |
| C31 | Built transactions conserve tokens | `WalletModel`; invariants of the builder's and selector's loops | proved | `c31_tokens` (WalletProps.v) |
| C32 | Box selection covers the target and returns exact change | `WalletModel`; invariants of the builder's and selector's loops | partial | `c32_selected`, `c32_tokens`, `c32_value_partial`, `c32_change_admissible`, `c32_not_enough_coins`, `c32_not_enough_tokens`, `c32_change_never_short`, `c32_value_refuted` (WalletProps.v) |
| C33 | Box builder enforces minimum value and minting rules | `WalletModel`; invariants of the builder's and selector's loops | partial | `c33_min_value`, `c33_fields`, `c33_mint_refused`, `c33_mint`, `c33_panics_partial`, `c33_no_panic_refuted` (WalletProps.v) |
| C34 | Registers are densely packed and retrievable | `ChainModel`; arithmetic and list reasoning | partial | `c34_regs_of_map`, `c34_order_irrelevant`, `c34_map_of_regs`, `c34_regs_roundtrip`, `c34_get_refuted`, `c34_regs_of_vec` (ChainProps.v, TightenProps.v) |
| C35 | Address encoding round trip | `AddressModel`; positional notation, collision-free statements | partial | `c35_roundtrip_partial`, `c35_accepted_partial`, `c35_network`, `c35_injective`, `c35_empty_script_refuted`, `c35_trailing_refuted`, `c35_unknown_network_refuted` (AddressProps.v) |
| C36 | Address and script correspond | `AddressModel`; positional notation, collision-free statements | partial | `c36_recognised`, `c36_script_injective`, `c36_public_key`, `c36_same_script_partial`, `c36_script_hash_partial`, `c36_hash_input_refuted`, `c36_script_hash_unreadable_refuted` (AddressProps.v) |
| C37 | Base58 round trip | `AddressModel`; positional notation, collision-free statements | proved | `c37_decode_encode`, `c37_injective`, `c37_encode_decode`, `c37_meaning`, `c37_refuses` (AddressProps.v) |
| C38 | Derivation path text round trip and rejection | `DeriveModel`; induction on text and paths, group homomorphism | partial | `c38_parses`, `c38_roundtrip`, `c38_injective`, `c38_accepted_partial`, `c38_malformed_refuted`, `c38_apostrophe_refuted`, `c38_next_partial`, `c38_next_hardened_end`, `c38_next_normal_refuted` (DeriveProps.v) |
| C39 | Public and private key derivation agree | `DeriveModel`; induction on text and paths, group homomorphism | partial | `c39_child`, `c39_derive`, `c39_hardened`, `c39_bip32_partial`, `c39_compose`, `c39_incompatible_partial`, `c39_short_path_refuted` (DeriveProps.v) |
| C40 | Merkle proofs are complete | `MerkleModel`; heap-indexed tree invariant, collisions exhibited | proved | `c40_root_is_textbook_root`, `c40_proofs_complete`, `c40_lookup_by_data` (MerkleProps.v) |
| C41 | Merkle proofs are sound | `MerkleModel`; heap-indexed tree invariant, collisions exhibited | proved | `c41_proofs_sound`, `c41_data_is_a_leaf` (MerkleProps.v) |
| C42 | Merkle multiproofs are complete | `MerkleModel`; heap-indexed tree invariant, collisions exhibited | proved | `c42_multiproofs_complete` (MerkleProps.v) |
| C43 | Merkle multiproofs are sound | `MerkleModel`; heap-indexed tree invariant, collisions exhibited | partial | `c43_duplicate_index_refuted`, `c43_position_refuted`, `c43_internal_node_refuted`, `c43_entries_have_single_proofs_partial`, `c43_listed_data_are_leaves_partial` (MerkleProps.v) |
| C44 | Batch proof serialisation round trip | `MerkleModel`; heap-indexed tree invariant, collisions exhibited | partial | `c44_batch_proof_roundtrip`, `c44_zero_hash_refuted` (MerkleProps.v) |
| C45 | Interlink packing round trip | `NipopowModel`; induction on histories and chains | partial | `c45_pack_unpack`, `c45_pack_total_partial`, `c45_long_run_refuted`, `c45_interlinks_of_chain` (NipopowProps.v) |
| C46 | NIPoPoW verifier history invariant | `NipopowModel`; induction on histories and chains | partial | `c46_best_was_received`, `c46_first_anchored_is_kept`, `c46_replaced_only_by_better`, `c46_valid_once_seen_partial`, `c46_first_unchecked_refuted`, `c46_poisoned_refuted` (NipopowProps.v) |
| C47 | NIPoPoW proof comparison is a strict order on valid proofs | `NipopowModel`; induction on histories and chains | partial | `c47_irreflexive`, `c47_asymmetric`, `c47_common_ancestor`, `c47_score_partial`, `c47_zero_m_refuted`, `c47_negative_level_refuted`, `c47_zero_difficulty_refuted` (NipopowProps.v) |
| C48 | Compact difficulty decoding | `PowModel`; arithmetic | proved | `c48_compact_bits`, `c48_normal_form` (PowProps.v) |
| C49 | Autolykos helper functions are exact and total | `PowModel`; arithmetic | partial | `c49_fixed_length_bytes`, `c49_table_size`, `c49_table_size_steps`, `c49_indexes_partial`, `c49_indexes_refuted`, `c49_hit_total_partial`, `c49_hit_autolykos_partial`, `c49_hit_version1` (PowProps.v, PowProps2.v) |
| C50 | Header serialisation round trip | `HeaderModel`; composition of readers and writers | partial | `c50_header_roundtrip`, `c50_parsed_id_is_hash`, `c50_serialization_injective`, `c50_unknown_fields_refuted`, `c50_new_fields` (HeaderProps.v, HeaderProps2.v) |
| C51 | Script arithmetic is exact or fails | `EvalModel`; exact integer arithmetic against `result`, two's complement | partial | `c51_result_is_exact_or_error`, `c51_representable_result_is_returned_partial`, `c51_comparisons`, `c51_negation`, `c51_remainder_refuted`, `c51_big_remainder_refuted` (EvalArithProps.v) |
| C52 | Numeric casts are exact or fail | `EvalModel`; exact integer arithmetic against `result`, two's complement | partial | `c52_upcast_keeps_the_number`, `c52_downcast_keeps_the_number_or_fails`, `c52_downcast_that_fits_succeeds_partial`, `c52_downcast_after_upcast_partial`, `c52_downcast_after_upcast_refuted` (EvalArithProps.v) |
| C53 | Collection operations meet their list specification | `EvalModel`; list specifications with positions (`at_`) | partial | `c53_by_index`, `c53_size`, `c53_slice`, `c53_append`, `c53_zip`, `c53_indices`, `c53_updated`, `c53_patch_partial`, `c53_update_many`, `c53_index_of_partial`, `c53_map`, `c53_filter`, `c53_exists`, `c53_forall`, `c53_fold`, `c53_index_of_refuted`, `c53_patch_refuted`, `c53_flat_map_fails_refuted`, `c53_flat_map_type_refuted` (EvalCollProps.v) |
| C54 | Long/byte-array conversion round trip | `EvalModel`; exact integer arithmetic against `result`, two's complement | partial | `c54_long_to_bytes`, `c54_bytes_to_long_partial`, `c54_roundtrip_partial`, `c54_roundtrip_refuted` (EvalArithProps.v) |
| C55 | Evaluation keeps variable scopes separate | `EvalModel`; induction on fuel with a frame relation on environments | partial | `c55_bindings_unchanged_partial`, `c55_value_depends_on_bindings`, `c55_operands_do_not_interfere_partial`, `c55_top_level_refuted`, `c55_defined_twice_refuted`, `c55_functions_see_the_caller_refuted` (EvalProps.v) |
| C56 | Conditional and logical operators are lazy | `EvalModel`; induction on fuel with a frame relation on environments | partial | `c56_if`, `c56_untaken_branch_is_ignored`, `c56_and_or_decided`, `c56_and_or_undecided`, `c56_defaults_refuted` (EvalProps.v) |
| C57 | 256-bit integers stay in range and arithmetic is exact | `BigIntModel`; arithmetic | proved | `c57_construction`, `c57_checked_arithmetic`, `c57_remainder_and_negation`, `c57_bit_operations`, `c57_bytes_roundtrip`, `c57_bytes_in_range`, `c57_short_bytes_accepted` (BigIntProps.v) |
| C58 | Peer-to-peer records round trip | `P2pModel`; composition, induction on call histories | partial | `c58_peer_addr_roundtrip`, `c58_peer_feature_roundtrip`, `c58_unknown_feature`, `c58_protocol_version_roundtrip`, `c58_peer_spec_roundtrip`, `c58_empty_agent_refuted`, `c58_port_dropped_refuted` (P2pProps.v) |
| C59 | Multi-signature hints are kept per input | `SignModel`, `ProverModel`; list reasoning, invariants of successive signers | proved | `c59_all_hints`, `c59_no_hint_lost` (SignProps.v) |
| C60 | Distributed signing completes | `SignModel`, `ProverModel`; list reasoning, invariants of successive signers | partial | `c60_distributed_signing_partial`, `c60_compound_branch_refuted`, `c60_surplus_signer_refuted`, `c60_repeated_key_refuted` (CoSignProps.v) |
| C61 | Transaction context is complete | `TxModel`; composition of the expression and box codecs | proved | `c61_context_complete`, `c61_input_box`, `c61_make_context`, `c61_same_context` (TxProps.v) |
| C62 | Signing a transaction produces a verifiable transaction | `SignModel`; C10 applied to every input; corollary with the evaluator as reducer | partial | `c62_signed_tx`, `c62_signed_verifies_partial`, `c62_reduced_same`, `c62_p2pk_agrees` (SignProps.v) |
| C63 | Spending proof and context extension encoding round trip | `TxModel`; composition of the expression and box codecs | partial | `c63_proof_roundtrip`, `c63_extension_roundtrip`, `c63_empty_proof_refuted`, `c63_long_proof_refuted`, `c63_full_extension_refuted` (TxProps.v) |
| C64 | Size estimate bounds the signed size | `WalletModel`; invariants of the builder's and selector's loops | partial | `c64_estimate_refuted` (WalletProps.v) |
| C65 | Interlinks proof binds interlinks to the header | `NipopowModel`; induction on histories and chains | partial | `c65_header_ignored_refuted`, `c65_honest_proof_rejected_refuted`, `c65_interlinks_only_partial` (NipopowProps.v) |
| C66 | NIPoPoW prover makes valid proofs | `NipopowModel`; induction on histories and chains | partial | `c66_prove_valid`, `c66_zero_m_refuted` (NipopowProveProps.v) |
| C67 | NIPoPoW proof serialization round trip | `NipopowModel`; induction on histories and chains | proved | `c67_popow_header_roundtrip`, `c67_nipopow_proof_roundtrip` (NipopowSerProps.v) |
| C68 | In-memory peer database is a map | `P2pModel`; composition, induction on call histories | proved | `c68_lookup_after_history`, `c68_results` (P2pProps.v) |
| C69 | The proposition of a received script is the script | `SerModel`; induction on expressions with the constant-substituting reader | partial | `c69_proposition_partial`, `c69_proposition_inline`, `c69_inline_refuted`, `c69_no_panic` (SerProps.v, VerifyPanicProps.v) |
| C70 | Register names parse exactly or are refused | `ChainModel`; arithmetic and list reasoning | partial | `c70_reg_name_roundtrip`, `c70_reg_name_exact`, `c70_reg_name_panics_refuted` (ChainProps.v) |
| C71 | A reduced transaction survives the trip to the offline signer | `TxModel`; composition of the expression and box codecs | proved | `c71_reduced_roundtrip` (TxProps.v) |
| C72 | A token position in a received transaction names the token the bytes say | `TxModel`; composition of the expression and box codecs | partial | `c72_token_table_refuted`, `c72_token_table` (TxProps.v) |
| C73 | Ledger encoding of a path | `DeriveModel`; induction on text and paths, group homomorphism | partial | `c73_ledger_bytes_partial`, `c73_length_refuted` (DeriveProps.v) |
| C74 | Secret keys as bytes | `DeriveModel`; induction on text and paths, group homomorphism | partial | `c74_roundtrip`, `c74_accepted`, `c74_tuple_refuted`, `c74_address` (DeriveProps.v) |
| C75 | Evaluating or reducing a script read from bytes never panics | `EvalModel`, `PrintModel`; invariant that values and expressions come from a reader | partial | `c75_eval_partial`, `c75_reduce_partial`, `c75_read_script_partial`, `c75_result_type_refuted`, `c75_print_rebuild_refuted`, `c75_print_items_refuted`, `c75_print_indent_refuted`, `c75_subst_constants_refuted`, `c75_any_script_partial` (EvalPanicProps.v, VerifyPanicProps.v) |
| C76 | Evaluation of a script without deserialization ends | `EvalModel`; measure on expressions and call levels | partial | `c76_terminates_refuted`, `c76_terminates_partial`, `c76_steps_suffice_partial`, `c76_redefined_refuted`, `c76_bound_once_refuted` (EvalProps.v, TermProps.v) |
| C77 | The result of evaluation is unique | `EvalModel`; induction on fuel with a frame relation on environments | proved | `c77_more_steps`, `c77_one_result`, `c77_one_reduction` (EvalProps.v) |
| C78 | Equality in scripts is equality of values | `EvalModel`, `EqModel`; induction on values | proved | `c78_equality`, `c78_collections`, `c78_constants` (EvalEqProps.v) |
| C79 | A script of type T evaluates to a value of type T | `TypeSound`: types of literals and values, induction over the evaluation depth with one case per node and method; `TypeRead`: induction over what readers produce (`ok_mutind`) shows that the checks of the reader are the premises | partial | `c79_eval_partial`, `c79_read_partial`, `c79_proposition_partial`, `c79_reduce_partial`, `c79_if_refuted`, `c79_fold_refuted`, `c79_items_refuted`, `c79_default_refuted`, `c79_register_refuted`, `c79_identifier_refuted`, `c79_flat_map_refuted`, `c79_state_root_refuted` (TypeSoundProps.v) |
| C80 | Authenticated trees change only as permitted and proved | `EvalModel`; any verifier | proved | `c80_not_permitted`, `c80_insert_update`, `c80_remove`, `c80_update_operations`, `c80_update_digest`, `c80_lookups`, `c80_get_many`, `c80_permissions_told` (EvalAvlProps.v) |
| C81 | What is accepted can be written and read again | `SerModel`, `TxModel`; mutual induction on the reader's fuel: what is read is well formed | partial | `c81_expression`, `c81_constant`, `c81_script`, `c81_tree`, `c81_box`, `c81_transaction_partial`, `c81_transaction_refuted` (ParseProps.v) |
| C82 | Reading untrusted bytes never panics | `SerModel`, `TxModel`; mutual induction on the reader's fuel: what is read is well formed | proved | `c82_expression`, `c82_constant`, `c82_tree`, `c82_box`, `c82_transaction` (ParseProps.v) |
| C83 | A script sees exactly its transaction | `EvalModel`; symbolic evaluation against separate specifications | partial | `c83_context`, `c83_context_properties`, `c83_self_index`, `c83_header`, `c83_pre_header`, `c83_box_properties`, `c83_box`, `c83_register`, `c83_self_index_of_input`, `c83_register_type_refuted`, `c83_state_root_refuted`, `c83_context_property_refuted` (EvalDataProps.v) |
| C84 | Connectives have their logical meaning | `EvalModel`; symbolic evaluation against separate specifications | partial | `c84_booleans`, `c84_negation`, `c84_binary`, `c84_sigma_and`, `c84_sigma_or`, `c84_at_least_partial`, `c84_bool_to_sigma`, `c84_at_least_refuted` (EvalOpProps.v) |
| C85 | Options and tuples | `EvalModel`; symbolic evaluation against separate specifications | proved | `c85_option`, `c85_option_map`, `c85_option_filter`, `c85_tuple`, `c85_select` (EvalOpProps.v) |
| C86 | Group, hash and byte operations of scripts | `EvalModel`; symbolic evaluation against separate specifications | partial | `c86_exponentiate`, `c86_multiply`, `c86_generator`, `c86_negate`, `c86_encode_decode`, `c86_hashes`, `c86_prove_dlog`, `c86_prove_dh_tuple`, `c86_xor`, `c86_global_xor`, `c86_xor_symmetric_refuted`, `c86_decode_refuted` (EvalOpProps.v) |
| C87 | Variables, blocks and function application | `EvalModel`; symbolic evaluation against separate specifications | partial | `c87_variable`, `c87_undefined`, `c87_block`, `c87_apply`, `c87_arity_refuted` (EvalOpProps.v) |
| C88 | substConstants changes exactly the chosen constants | `EvalModel`; symbolic evaluation against separate specifications | partial | `c88_substitute`, `c88_refused`, `c88_bytes_refuted` (EvalOpProps.v) |
| C89 | Context variables and executed scripts | `EvalModel`; symbolic evaluation against separate specifications | proved | `c89_get_var`, `c89_execute_var`, `c89_execute_register`, `c89_register_default`, `c89_written_script` (EvalOpProps.v) |
| C90 | JSON of boxes and transactions is lossless | `JsonModel`; round trip per object, maps in any order by permutation lemmas | proved | `c90_token`, `c90_candidate`, `c90_box`, `c90_input`, `c90_unsigned_transaction`, `c90_transaction`, `c90_member_order`, `c90_unknown_members`, `c90_scripts`, `c90_registers`, `c90_constants` (JsonProps.v) |
| C91 | What is accepted from JSON is consistent | `JsonModel`; one invariant of accepted documents (`JsonProofs.good_*`) composed with the round trips | partial | `c91_box`, `c91_box_identifier`, `c91_candidate`, `c91_input`, `c91_transaction`, `c91_unsigned_transaction`, `c91_output_place_refuted`, `c91_last_register`, `c91_last_variable` (JsonProps.v, TightenProps.v) |
| C92 | JSON of propositions, secrets, hints, headers and Merkle proofs | `JsonModel`, `HeaderModel`; as C90 and C91, propositions by structural induction | partial | `c92_proposition`, `c92_proposition_accepted`, `c92_nesting`, `c92_secret`, `c92_secret_accepted`, `c92_hint`, `c92_hint_proofs`, `c92_hint_accepted`, `c92_hints_bag`, `c92_header`, `c92_header_refuted`, `c92_header_bytes`, `c92_header_id_refuted`, `c92_constant_refuted`, `c92_position_refuted`, `c92_merkle`, `c92_merkle_accepted`, `c92_batch`, `c92_batch_accepted` (JsonHintProps.v) |
| C93 | JSON reading is exact and does not panic | `JsonModel`; the acceptance invariant also excludes panics for documents with plain names | partial | `c93_amount`, `c93_integer`, `c93_hex`, `c93_no_panic`, `c93_hint_no_panic`, `c93_register_name_refuted`, `c93_votes_refuted`, `c93_threshold_refuted`, `c93_value_bounds_refuted` (JsonHintProps.v) |
| C94 | A box is spent exactly on its script's terms | `SignModel` with `EvalModel.reduce_to_crypto` as reducer; verification inverted step by step; two contracts evaluated symbolically | partial | `c94_reduction`, `c94_reduces`, `c94_steps`, `c94_accepted`, `c94_refused`, `c94_not_signed`, `c94_spend_partial`, `c94_time_lock`, `c94_time_lock_sign`, `c94_time_lock_spent`, `c94_hash_lock` (SpendProps.v) |
| C95 | Checking a transaction received from somebody else never panics | `TxModel`, `SignModel`, `EvalModel`; readers' invariants carried through the constant store, the context, the evaluator and the verifier | partial | `c95_verify_partial`, `c95_threshold_refuted` (VerifyPanicProps.v) |
| C96 | Box selection succeeds when the funds suffice | `WalletModel.select`; loop invariant on what may have been left out; all sums shown to stay in range | proved | `c96_selection_found`, `c96_selection_found_refuted` (SelectProps.v) |
| C97 | The compiler never panics | `CompilerModel`; invariant of error-free syntax trees (`wfe`), total passes; arithmetic sources characterised at the level of their text | partial | `c97_no_panic_tokens_partial`, `c97_no_panic_partial`, `c97_operators_refuted`, `c97_describe_refuted` (CompilerProps.v) |
| C98 | Compiled scripts mean what the source says | `CompilerModel`; precedence invariant of the parser, structural description of binding and typing, determinism of the terms read off the tokens; composed with the evaluator and with C23; the grouping of operators is a second invariant of the parser, stated against trees whose grouping is unique | partial | `c98_sound`, `c98_sound_whole`, `c98_exact`, `c98_script`, `c98_value`, `c98_unspendable_refuted`, `c98_ignored_refuted`, `c98_position_refuted`, `c98_ill_typed_refuted`, `c98_grouping`, `c98_grouping_unique` (CompilerProps.v, CompilerTreeProps.v) |
| C99 | The parser loses nothing, points into the source, and compilation is feasible | `CompilerModel`; the leaves of the tree are the tokens; positions by induction over the tree; an instrumented copy of `assign_type` proved equal to it | partial | `c99_lossless`, `c99_error_positions`, `c99_count`, `c99_exponential_refuted` (CompilerProps.v) |
| C100 | Reading reserves no more memory than the bytes warrant | `AllocModel`: the readers of `SerModel` with every reservation explicit and limited; simulation between the limited and the unlimited reader by induction over the fuel | partial | `c100_faithful`, `c100_accepted_partial`, `c100_reserved_refuted`, `c100_enough` (AllocProps.v) |
| C101 | Nesting is limited when reading and evaluating | `SerModel`, `TypeModel` and `EvalModel` with room for a given number of nested calls; induction over the depth for the witnesses, the agreement of the limited and the unlimited reader for what holds | partial | `c101_limited_refuted`, `c101_scripts_refuted`, `c101_types_refuted`, `c101_bytes_partial`, `c101_eval_refuted` (DepthProps.v) |
| C102 | Peer discovery finds exactly the nodes that can be reached | `DiscoveryModel`: a transition system of the main task, the request tasks, both channels and the timer; invariants over all runs; completeness by an invariant on what is known before each answer | proved | `c102_sound`, `c102_complete` (DiscoveryProps.v) |
| C103 | Peer discovery returns | `DiscoveryModel`; the count equals what is in flight; progress by cases on the state; a measure that every step decreases | partial | `c103_progress`, `c103_bounded`, `c103_after_timeout`, `c103_returns`, `c103_unresolvable_refuted`, `c103_portless_refuted` (DiscoveryProps.v) |
| C104 | Peer discovery asks each node once and limits its tasks | `DiscoveryModel`; an invariant on how often a URL was sent; witnesses by an executable scheduler | partial | `c104_at_most`, `c104_all_asked`, `c104_twice_refuted`, `c104_parallel_refuted` (DiscoveryProps.v) |
| C105 | The version check of nodes compares versions | `DiscoveryModel.is_at_least_version_4_0_100`; versions as numbers with their decimal text | partial | `c105_three_digits_partial`, `c105_version_refuted` (DiscoveryProps.v) |
| C106 | Chrome peer discovery finds exactly the live peers, over any number of calls | `ChromeModel`, a transition system; soundness by an invariant on all that is under way; completeness by an invariant with a ghost set of nodes dealt with, carried over from call to call | proved | `c106_complete`, `c106_sound`, `c106_kept`, `c106_no_panic` (ChromeFindProps.v, ChromeProps.v) |
| C107 | Chrome peer discovery returns | `ChromeModel`; the two counters equal weighted sums of what is under way (`counted`); progress by cases on the state; hanging calls by invariants that hold for ever after | partial | `c107_silence_refuted`, `c107_lone_seed_refuted`, `c107_progress_partial`, `c107_lost_refuted`, `c107_timeout_refuted`, `c107_small_limit_refuted` (ChromeOnceProps.v, ChromeProps.v) |
| C108 | Chrome peer discovery keeps to its limit and asks each node once | `ChromeModel`; the limit from the request counter; once each by an invariant that follows the first request until its answer is dealt with | partial | `c108_limit`, `c108_once`, `c108_again_refuted` (ChromeOnceProps.v) |
| C109 | The heap of timers is a priority queue with removal | `HeapModel`; the order and the links between items and index table as an invariant, the bag of items as the specification that every operation refines | proved | `c109_refines`, `c109_no_panic`, `c109_slots`, `c109_sorted` (HeapProps.v) |
| C110 | A delay fires at its time and not before | `TimerModel` (on `HeapModel`); what a history of calls says of each delay as the specification; an invariant ties heap entries, slots, the list of updates and generations to it | partial | `c110_exact`, `c110_never_early`, `c110_fires`, `c110_gone`, `c110_no_panic`, `c110_next`, `c110_woken`, `c110_reset_gone_refuted`, `c110_past_refuted`, `c110_wrap_refuted` (TimerProps.v) |
| C111 | In a browser delays fire on time | `BrowserModel` on `TimerModel`; an invariant that every instant in the heap is covered by a pending callback | partial | `c111_never_early`, `c111_bounded`, `c111_on_time_partial`, `c111_late_refuted`, `c111_sleep_refuted` (BrowserProps.v) |
| C112 | An interval gives one item per period | `IntervalModel` on `TimerModel`; arithmetic of the next instant; the poll from C110 | partial | `c112_next`, `c112_fraction_refuted`, `c112_zero_refuted`, `c112_tick`, `c112_gone_refuted` (IntervalProps.v) |
| C113 | Scripts that are accepted follow the typing rules | typing rules as an inductive relation; each constructor of `IrModel.op_ty` inverted into a rule; carried through the reader by the specification of readable scripts | partial | `c113_read_partial`, `c113_read_expr_partial`, `c113_accepted_partial`, `c113_context`, `c113_unchecked_refuted`, `c113_binary_refuted`, `c113_function_refuted`, `c113_function_default_refuted` (OperandProps.v) |
| C114 | A mnemonic phrase encodes its entropy | `MnemonicModel` with the eight lists of words as data; value of bits in groups of eleven; a phrase is cut at the delimiter because no word lets it begin inside; facts about the lists by computation on them | partial | `c114_words`, `c114_letters_partial`, `c114_exact`, `c114_refused`, `c114_generate`, `c114_injective`, `c114_french_refuted`, `c114_language`, `c114_lists`, `c114_own_list`, `c114_seed`, `c114_seed_normal` (MnemonicProps.v, MnemonicProps2.v) |
| C115 | EIP-12 documents survive a JavaScript wallet | `Eip12Model`: the documents of both bindings as values of `JsonModel`, and `js_pass`, what ECMAScript does to a parsed document: integer-named keys first in ascending order, numbers rounded to doubles; round trip by induction over the lists of a transaction, stability of each part under `js_pass` | partial | `c115_token`, `c115_candidate`, `c115_box`, `c115_unsigned_transaction`, `c115_transaction`, `c115_js_candidate`, `c115_js_box`, `c115_js_unsigned_transaction`, `c115_js_transaction`, `c115_js_ordered`, `c115_js_order_refuted`, `c115_js_refused_refuted`, `c115_plain_refuted` (Eip12Props.v) |
| C116 | Constants from JavaScript values mean what the caller wrote | `JsConvModel`: values of JavaScript as a tree, numbers as fractions, NaN and infinities; the specification is the relation `js_means`; both conversions by induction on nested values | partial | `c116_from_js`, `c116_accepted_partial`, `c116_roundtrip_partial`, `c116_no_panic_partial`, `c116_tuple_refuted`, `c116_boolean_refuted`, `c116_small_refuted`, `c116_number_refuted`, `c116_empty_refuted`, `c116_mixed_refuted` (JsConvProps.v) |
| C117 | Extracting a Rust value from a constant checks its type | `JsConvModel.extract` over a type of Rust types; the specification is the typing relation `has`; by induction on the Rust type | partial | `c117_extract`, `c117_exact`, `c117_tuple_partial`, `c117_more_items_refuted`, `c117_empty_refuted` (JsConvProps.v) |
| C118 | Simulated block streams are valid, mined chains | `ChainGenModel.block_stream` over a list of draws; the specification is the Autolykos equation in the group, the textbook Merkle root and `chain_ok` of C66; by induction on the draws with the interlinks of the chain so far as invariant | partial | `c118_stream_is_a_chain`, `c118_stream_is_provable`, `c118_stream_resumes`, `c118_stream_goes_on_partial`, `c118_zero_index_refuted` (ChainGenProps.v) |
| C119 | Printed scripts carry positions that name their nodes | `PrintTextModel.print_text` over a writer with buffer, position and indentation; every node is a list of steps run by one interpreter; a printer commutes with text put before it and a node is found in the text by induction on the path to it; the indentation is proved to be that of `PrintModel` | partial | `c119_positions_inside`, `c119_positions_name_nodes`, `c119_positions_nest`, `c119_prints`, `c119_stored_constants_refuted`, `c119_same_text_refuted`, `c119_no_position_refuted`, `c119_operand_outside_refuted`, `c119_indentation_refuted` (PrintTextProps.v) |
| C120 | An evaluation error points at the expression that failed and can be shown | `PrintTextModel.report` folds `enrich_err` over the calls that the error leaves; showing is a state machine whose state is whether an error hook is installed | partial | `c120_report_points_into_text`, `c120_report_panics_iff`, `c120_unplaced_refuted`, `c120_shown_once_partial`, `c120_second_report_refuted` (PrintTextProps.v) |
| C121 | A wallet signs exactly for the keys it holds, and a message signature is about its message | `KeyringModel`: a wallet is the list of its secrets; completeness and refusal from C10 and C11, binding from the string the verifier hashes, spending by comparing the context and message of the unsigned and the signed transaction (C29, C61) | partial | `c121_message_signed`, `c121_message_refused`, `c121_message_bound`, `c121_message_spends`, `c121_add_secret_partial`, `c121_add_secret_refuted`, `c121_mnemonic`, `c121_separation_refuted` (KeyringProps.v) |
| C122 | The hints a wallet makes are for its keys only and their public part is safe to share | a loop invariant of `KeyringModel.collect` over the inputs and `leaf_at` as the specification of positions; the theft is a computation in the scalars modulo the prime order | partial | `c122_commitments`, `c122_reduced_same`, `c122_extracted`, `c122_input_alone`, `c122_public_hints_give_key`, `c122_public_hints_refuted` (KeyringProps.v) |
| C123 | Objects behind C pointers behave as values | a simulation between memory with an arbitrary allocator and a specification `spec_run` over values without memory (`rep`, `owned` in `CHandleProps`) | partial | `c123_value_semantics`, `c123_no_leak`, `c123_collection_is_list`, `c123_stale_pointer_refuted`, `c123_null_reported_refuted`, `c123_bounded`, `c123_strings_leak_refuted` (CHandleProps.v) |
| C124 | Every asynchronous request makes exactly one callback | a transition system of worker and caller (`RequestModel.step`); invariants by induction over histories, and two-line schedules as counterexamples | partial | `c124_completed_once`, `c124_outcome_delivered`, `c124_left_alone`, `c124_abort_calls`, `c124_abort_stops`, `c124_released_once_partial`, `c124_released_once_refuted`, `c124_always_called_refuted`, `c124_started`, `c124_discovery_started`, `c124_null_handle_refuted` (RequestProps.v) |
| C125 | The timer thread never sleeps through a delay, and there is only one | a transition system of the timer's thread and its users (`HelperModel.hdo`), control and contents invariants by induction over histories, then explicit continuations from every control point; a second one for the race (`HelperModel.gstep`) | proved | `c125_sleeps_when_idle`, `c125_no_lost_delay`, `c125_fired_when_due`, `c125_current`, `c125_fires`, `c125_stops`, `c125_one_timer`, `c125_one_helper`, `c125_returns`, `c125_found` (HelperProps.v) |
| C126 | Containers of the network format are lossless and safe to read | closure of three predicates on codecs (`lossless`, `reads`, `quiet`) under the containers, by induction over lists; short messages as counterexamples | partial | `c126_lossless`, `c126_reads`, `c126_rewritten`, `c126_quiet`, `c126_quiet_refuted`, `c126_reserved_refuted`, `c126_canonical_refuted`, `c126_long_list_refuted` (ScorexProps.v) |
| C127 | Time limits on futures and streams act exactly when the time has passed | the timer's theorems (C110) applied to the two combinators, and the time since the last reset by induction over histories | partial | `c127_answer_passed`, `c127_limit_exact`, `c127_never_early`, `c127_times_out`, `c127_woken`, `c127_gone`, `c127_never_early_refuted`, `c127_stream_exact`, `c127_stream_spacing`, `c127_stream_items`, `c127_stream_spins_refuted` (DeadlineProps.v) |
| C128 | Browser requests are sent as they were built, with defaults only where nothing was set | induction over the calls, the values of one name at a time, and over the maps merged | partial | `c128_first_error`, `c128_parts`, `c128_accepted`, `c128_headers`, `c128_defaults`, `c128_default_values_refuted`, `c128_started`, `c128_default_limit`, `c128_sent`, `c128_sends`, `c128_built`, `c128_sent_headers`, `c128_timeout_wraps`, `c128_timeout_refuted`, `c128_clone`, `c128_http`, `c128_http_keeps`, `c128_http_loses`, `c128_http_back_refuted`, `c128_outcome`, `c128_body_limit_refuted`, `c128_response`, `c128_status`, `c128_no_cors_refuted` (FetchProps.v) |

Notes on the partial ones:

* **C10** Completeness for every group, hash, message and randomness when no OR lists an alternative twice and no threshold exceeds its children; without either condition the code fails (both refuted by witnesses), so nothing provable is missing.
* **C17** False of the code: appended bytes are ignored and a response may be replaced by a congruent number. Both refutations are proved; what acceptance does imply is C12.
* **C22** Round trip for every well-formed expression (the well-formedness predicate of SerSpec); false for a binary operation whose left operand is a collection of Boolean constants (refuted).
* **C25** Preserved for bytes the library writes and for scripts not understood; false for received bytes with header bits 5-7, leftover bytes inside the size, or a superfluous size byte in a box (refuted).
* **C26** Exact or error for every operation except multiplication of a box value by zero and parsing a value from text, which leave the range (refuted).
* **C27** Round trips and identity for every well-formed box; for bytes not written by the library the id need not be the hash of the bytes read (refuted).
* **C30** Structure (no double spends, fee box, change) unconditionally; value conservation when both totals are below 2^64. Beyond that the code's wrapping sum loses 2^64 nanoERG (refuted).
* **C32** Selection, tokens, change and both failure cases unconditionally; the value equation when the offered boxes hold less than 2^64, false otherwise (refuted).
* **C33** Minimum value, fields and minting rules for every builder; the exact condition under which it panics is proved, so 'never panics' is false (refuted).
* **C34** Construction, order independence, lookup by map and encoding; NonMandatoryRegisters::get looks at the wrong position (refuted).
* **C35** Round trip for every valid address, and what any accepted text must look like; empty scripts, trailing bytes after a point and unknown network bytes behave otherwise (refuted).
* **C36** Recognition and same script for P2PK and P2S and for everything read or written by the library; script-hash scripts are not readable back and their hash input is not checked (refuted).
* **C38** Printing and parsing round trip, injectivity, the next path; malformed components, inner apostrophes and the last normal index are accepted wrongly (refuted).
* **C39** Agreement of public and private derivation for whole paths, hardened refusal, BIP32 skip rule while the index stays in range; deriving a shorter path panics (refuted).
* **C43** False of the code in three ways (refuted); proved: with distinct indices every listed leaf has a single-leaf proof to the root and belongs to the tree or a collision is exhibited. Missing because false: the position.
* **C44** Round trip for every batch proof whose sibling hashes are not 32 zero bytes; those are read back as absent (refuted).
* **C45** Round trip for every vector that packs; packing succeeds up to 255 links and panics for a longer run of one id (refuted).
* **C46** Best proof was received, is anchored, is replaced only by a better one, and is valid once a valid one was processed; the first proof is stored unchecked and can block all later ones (refuted).
* **C47** Irreflexive, asymmetric, common ancestor, and the exact score for levels in range; does not terminate for m = 0 or a negative level and panics for zero difficulty (refuted).
* **C49** Fixed-length bytes and table size exactly; the hit of version 2 is that of Autolykos, stated on its own (c49_hit_autolykos_partial), and index generation panics exactly when a window is divisible by the table size (refuted totality).
* **C50** Round trip, injectivity and id of every well-formed header; new fields of up to 255 bytes are skipped whatever they hold (c50_new_fields); a header with unknown new fields gets the id of other bytes (refuted).
* **C51** Exact or error for every operator and operand; representable results are returned except the listed remainder cases (refuted).
* **C52** Upcast, downcast and their composition exactly, except from big integers, which are never cast down (refuted).
* **C53** Fifteen operations meet their list specification; indexOf with a start, patch with a negative index and flatMap do not (refuted).
* **C54** Long to bytes exactly; the exact condition under which bytes to Long is the two's complement value, with 128 as a counterexample to the round trip (refuted).
* **C55** In every scope with a binding evaluation leaves all bindings unchanged; false at the outermost scope, for identifiers defined twice and for functions (dynamic scope), all refuted.
* **C56** Laziness of if, && and || for every expression; the default of getOrElse is evaluated eagerly (refuted).
* **C58** Round trips of addresses, features, versions and specifications; an empty agent name is written but not read, and a declared address whose port is out of range is read as no address (both refuted).
* **C60** Distributed signing completes for every proposition provable in exactly one way with leaf alternatives; fails for compound, surplus and repeated alternatives (refuted).
* **C62** Signing yields a transaction with the same parts whose inputs all verify, under the conditions of C10 (which are necessary).
* **C63** Round trips within the bounds of the length fields; empty proofs, proofs of 65536 bytes and 256 variables are lost (refuted).
* **C64** False for every builder: the estimate is 54 bytes per input too small (refuted); the exact difference is part of the statement.
* **C65** False: the check ignores the header, and rejects honest proofs (refuted); proved for extensions of interlinks alone.
* **C66** Validity, suffix, prefix and level content for every well-formed chain with k, m at least 1 and enough blocks; m = 0 or a single block panics (refuted).
* **C69** For every root without inline constants the proposition is the root with placeholders replaced; what happens to inline constants is described exactly and refutes the general claim. Asking never panics.
* **C70** Names accepted and refused exactly; one two-byte character panics (refuted).
* **C72** Positions are right when the table has no repeated identifier; with repetitions they name other tokens (refuted).
* **C73** Exact bytes for paths shorter than 256 components; a path of 256 is announced as empty (refuted).
* **C74** Round trip, acceptance and addresses; a Diffie-Hellman secret is not checked against its tuple (refuted).
* **C75** No panic for every script read from bytes, with or without a constant store, without substConstants; the reducer panics exactly for results that are not propositions or scripts that cannot be printed. Four refutations show the exceptions are real.
* **C76** Terminates for every script without deserialization whose functions are called where written or by earlier identifiers (c76_terminates_partial, c76_steps_suffice_partial). False in general: self-deserialization (c76_terminates_refuted), a function defined twice that calls itself (c76_redefined_refuted, thirty bytes), self-application through a conditional with every identifier bound once (c76_bound_once_refuted). Missing: a wider class with functions as results.
* **C79** For every script that keeps clear of the exceptions named in the statement (c79_eval_partial; from bytes, c79_read_partial; reduction does not panic, c79_reduce_partial). Each exception is shown to be real by bytes that are read and evaluate to a value of another type (c79_*_refuted). Box constants in the constant store are left out.
* **C81** For expressions, constants, scripts, trees and boxes read from any bytes; for transactions when no input carries context variables, refuted otherwise.
* **C83** Every read is described for every context; the declared register type, the state root of a header and five context properties do not behave as declared (refuted).
* **C84** All connectives for every list; atLeast when there are at least two propositions and the bound is between zero and their number, an error otherwise (refuted).
* **C86** All listed operations; xor is not symmetric, Global.xor swaps operands, decodePoint ignores trailing bytes (refuted).
* **C87** Variables, blocks and application; the number of arguments is not checked (refuted).
* **C88** Result and refusals for every script, position list and value list; Byte values cannot be substituted (refuted).
* **C91** Identifiers and re-reading for every accepted document; the place the outputs of a transaction document claim for themselves is not compared (refuted).
* **C92** Round trips and acceptance for every value; a header without a distance, which every header of version 2 is, does not survive; identifiers of headers and the operation of constants are not checked; the empty position is refused (all refuted).
* **C93** Exactness for every number and text; no panic for every document with plain member names. Four refutations show which documents panic or leave the bounds.
* **C94** Soundness, refusal and both contracts for everything; completeness of signing under the conditions of C10 (c94_spend_partial), which are necessary.
* **C95** For every received transaction and boxes, outside the exceptions named in the statement (c95_verify_partial); each exception is real (C75, c95_threshold_refuted).
* **C97** Proved for every source without -, * and / outside comments (c97_no_panic_tokens_partial, c97_no_panic_partial); every arithmetic source with one of them panics (c97_operators_refuted), and so does describing an error at the start of the source (c97_describe_refuted).
* **C98** Soundness for every source (c98_sound), for the whole source without definitions, minus and parentheses (c98_sound_whole); exactly which sums compile, in any layout and with any comments (c98_exact); how + - * / are grouped (c98_grouping, c98_grouping_unique); script and value (c98_script, c98_value). Refuted: statements are ignored, HEIGHT is known only in some places, ill-typed sums compile, no compiled script can be satisfied (c98_*_refuted).
* **C99** Losslessness and error positions proved for every source; the work of typing is exponential in the number of terms (c99_exponential_refuted).
* **C100** Input that is accepted and holds no unreadable script reserves no more elements than it has bytes; malformed input, and scripts kept as unreadable, reserve what they announce: six bytes reserve 2^32 - 1 expressions (c100_reserved_refuted).
* **C101** There is no limit: for every depth there are bytes two longer than it that are read, as an expression, as a script and as a type, and evaluated, with more nested calls than that depth (c101_limited_refuted, c101_scripts_refuted, c101_types_refuted, c101_eval_refuted). The depth is at most the number of bytes (c101_bytes_partial).
* **C103** Proved for seeds whose hosts have addresses and whose URLs can carry a port. A seed whose host does not resolve makes its request task panic, and discovery never returns, not even after the timeout (c103_unresolvable_refuted); a seed such as file:///x panics at once (c103_portless_refuted).
* **C104** Each node is asked at most once, a seed at most twice; a seed listed by another seed before it has answered is asked twice (c104_twice_refuted); the number of request tasks is not limited (c104_parallel_refuted).
* **C105** Right for single-digit major and minor numbers with a three-digit patch number; 4.0.13 passes and 10.0.0 does not (c105_version_refuted).
* **C107** Only: when nothing can happen any more a call has returned, unless requests are left in its heap, the timeout has struck or a request got lost (c107_progress_partial). Each exception is real: the heap is only worked through when a message arrives, so a scan from a single live seed never returns (c107_lone_seed_refuted, c107_silence_refuted); a failure of /peers/all in the HTTP client other than a timeout sends no message (c107_lost_refuted); a timeout while the peers of a node are to be asked for leaves the count above zero for ever (c107_timeout_refuted); with a limit of one or two nothing is asked after the first request (c107_small_limit_refuted).
* **C108** The limit for every call (c108_limit), once each for the first call on a scan (c108_once). A later call sends its first request without a look at the nodes visited (c108_again_refuted).
* **C110** Exact answer of every poll while the timer exists and after it is dropped, wake-ups, next event, no panics, for histories with fewer than 2^30 resets of a delay between two polls of the timer. A delay that fired stays done when it is reset after the timer was dropped (c110_reset_gone_refuted); 2^30 resets revive the old instant (c110_wrap_refuted); a delay reset to the past is still pending at the next poll, against the documentation (c110_past_refuted).
* **C111** Never early and at most twenty callbacks, in every run; on time while at most 19 callbacks are pending (c111_on_time_partial). With 19 delays of an hour pending, one of a second fires an hour late (c111_late_refuted); a delay above 2^31 - 1 ms makes the callback run without pause (c111_sleep_refuted).
* **C112** Proved for periods of whole milliseconds and an existing timer. Other periods may give an instant that has passed (c112_fraction_refuted), a period of zero panics (c112_zero_refuted), and once the timer is gone the stream is ready at every poll (c112_gone_refuted).
* **C113** At every node of every script that was read, for the operations whose constructors the reader calls (c113_read_partial, c113_read_expr_partial), where a function is taken for its result; what follows the rules is accepted unless it gives a function (c113_accepted_partial). Twelve operations and all binary ones are read with operands of any type (c113_unchecked_refuted, c113_binary_refuted); functions pass for their results (c113_function_refuted) and are refused as defaults (c113_function_default_refuted).
* **C114** Everything for every language, entropy and hash with 32 bytes, and lists, delimiters and seeds compared with BIP-39 (c114_lists, c114_own_list, c114_seed, c114_seed_normal), except that the words are made of letters only (c114_letters_partial): the French list begins with a byte order mark, which becomes part of its first word (c114_french_refuted).
* **C115** Round trips for everything that can be written; through JavaScript for every box, and for transactions whose variables are in ascending order (c115_js_ordered); c115_js_unsigned_transaction and c115_js_transaction say what comes back otherwise. A transaction with variables in another order comes back with another message to sign (c115_js_order_refuted) or is refused (c115_js_refused_refuted).
* **C116** Every documented value is converted to what it means (c116_from_js). The converse for exact numbers and results with a type (c116_accepted_partial), round trips for Int, Long, BigInt, bytes and non-empty collections of these (c116_roundtrip_partial), no panics without empty arrays and short or long tuples (c116_no_panic_partial). Each exception is real: c116_tuple_refuted, c116_boolean_refuted, c116_small_refuted, c116_number_refuted, c116_empty_refuted, c116_mixed_refuted.
* **C117** Values of the type are given out for every Rust type (c117_extract); nothing else for types without tuples and values without empty collections and options (c117_exact); with tuples up to further items (c117_tuple_partial). A triple passes for a pair (c117_more_items_refuted), an empty collection for any vector (c117_empty_refuted).
* **C118** Everything for every draw, secret, hash function and length (c118_stream_is_a_chain, c118_stream_is_provable, c118_stream_resumes), when the floating-point levels are between 0 and 253. That the stream goes on is proved for hash functions that never select index zero and never need to be hashed again (c118_stream_goes_on_partial); when the first nonce selects index zero the miner panics (c118_zero_index_refuted).
* **C119** Positions lie inside the text, name their node (or what follows its first operand for indexing, map, exists, fold and filter) and nest, for every script and every text of constants and method names (c119_positions_inside, c119_positions_name_nodes, c119_positions_nest); c119_prints says which scripts have a text. Refuted: every node has a position (c119_no_position_refuted), a node contains its operands (c119_operand_outside_refuted), different scripts have different texts (c119_same_text_refuted, c119_stored_constants_refuted), the text of a node does not depend on what was printed before (c119_indentation_refuted).
* **C120** The position and the message of every report (c120_report_points_into_text) and when there is no report but a panic (c120_report_panics_iff). One report can be shown (c120_shown_once_partial), a second one in the same process panics (c120_second_report_refuted, given that the error library refuses a second hook, as it documents; its source is not in the repository). The position of an enclosing expression is not used when the innermost one has none (c120_unplaced_refuted).
* **C121** Signing and refusing (c121_message_signed, c121_message_refused), one signature for two messages is a hash collision (c121_message_bound), wallets from mnemonics (c121_mnemonic). Refuted: message signatures are usable as spending proofs because the signed bytes carry no tag (c121_message_spends for every transaction, c121_separation_refuted). Adding a secret keeps what could be signed for the propositions of C10 (c121_add_secret_partial); with an alternative listed twice it does not (c121_add_secret_refuted).
* **C122** Exactly the pairs for the wallet's own leaves (c122_commitments), same from the reduction (c122_reduced_same), extraction per input (c122_extracted), one input alone (c122_input_alone). Refuted: the part of the bag called public contains the randomness of the wallet's own commitments, which with the published proof gives the key (c122_public_hints_give_key, c122_public_hints_refuted).
* **C123** Value semantics for every allocator and every sequence of calls that uses no deleted object (c123_value_semantics), no leaks (c123_no_leak), collections as lists (c123_collection_is_list), bounded lists (c123_bounded). A kept pointer can silently denote a later object (c123_stale_pointer_refuted). Refuted: a null collection is reported; asking for its length ends the process (c123_null_reported_refuted). Refuted: nothing leaks, for the list of peers, whose block is never freed (c123_strings_leak_refuted). Copies of a pointer in two variables are not part of the specification.
* **C124** At most one completion, with one of response and error, delivered as the request ended (c124_completed_once, c124_outcome_delivered); a request left alone makes its one callback (c124_left_alone); each abort calls back once (c124_abort_calls); no completion after an abort outside a poll (c124_abort_stops); starting (c124_started, c124_discovery_started). One release for a single abort of a waiting request (c124_released_once_partial). Refuted: abort after the end or during a poll makes a second callback with the same data (c124_released_once_refuted); deleting the runtime loses the request without a callback (c124_always_called_refuted); a null pointer for the handle is written through (c124_null_handle_refuted). The behaviour of Abortable and of the runtime is taken from their documentation.
* **C126** Lossless, in range and rewritable for every item codec (c126_lossless, c126_reads, c126_rewritten), and quiet where 2^32 - 1 items can be addressed (c126_quiet). Refuted: five bytes make the reader panic on 32-bit machines (c126_quiet_refuted) and reserve memory for 2^32 - 1 items on others (c126_reserved_refuted); encodings are not unique (c126_canonical_refuted); lists of 2^32 items or more are cut silently (c126_long_list_refuted).
* **C127** Proved for histories in which the timer exists (c127_limit_exact, c127_never_early, c127_times_out, c127_woken, c127_stream_exact, c127_stream_spacing); answers are passed on in all histories (c127_answer_passed, c127_stream_items). Refuted without a timer: every pending future times out at once (c127_gone, c127_never_early_refuted) and a silent stream times out at every poll (c127_stream_spins_refuted).
* **C128** Building, defaults, sending and receiving are proved for all calls, maps and parsers (c128_first_error, c128_accepted, c128_parts, c128_headers, c128_built, c128_defaults, c128_started, c128_default_limit, c128_sent, c128_sends, c128_sent_headers, c128_outcome, c128_response, c128_status, c128_clone, c128_http, c128_http_keeps). Refuted: time limits from 2^31 milliseconds on abort at once (c128_timeout_wraps, c128_timeout_refuted); limits do not cover the body as documented (c128_body_limit_refuted); of several default values of a name only one is sent (c128_default_values_refuted); without CORS every answer of another site makes the client throw (c128_no_cors_refuted); conversion to the http crate loses limits and modes (c128_http_loses, c128_http_back_refuted).

## 3. Trusted base

* The Coq 8.16.1 kernel, with `vm_compute`; `coqchk` re-checks every file through ordinary conversion.
* No axioms: see section 5.  No library outside Coq's own standard library is used.
* Faithfulness of the hand translation from Rust to Gallina.  Each definition cites what it translates.
  Overflow is modelled as a panic where the code uses plain `+ - *` (debug build behaviour) and as wrapping where
  it uses `wrapping_*` or `as`; iterator `sum` over `u64` is wrapping as in a release build and the comment says so.
* The external crates listed under *Not modelled* behave as the functions that stand for them.

Simplifications that limit what the theorems say, beyond the abstractions of section 1:

* error values carry a short text instead of the Rust error type; theorems speak of success, error and panic only;
* a reader is given all its bytes at once; IO errors other than the end of input do not occur;
* `Vec::with_capacity` with an announced length is modelled for expressions and scripts only (`AllocModel`, C100); the other readers ignore it;
* unbounded recursion is cut by fuel and reported as an error; the Rust code would overflow its stack.

## 4. Findings about the code (refuted statements)

Each of the following contradicts a property a user could rely on.  The theorem in parentheses proves it of
the model, for every group and hash function unless a small instance is needed.

Signatures
* An OR that lists the same alternative twice yields a proof that does not verify (`c10_prover_complete_refuted`); a threshold above its number of children makes the prover panic (`c10_threshold_panics_refuted`) and, being accepted when read, stops everybody who checks a transaction spending such a box (`c95_threshold_refuted`).
* Proof bytes are malleable: appended bytes are ignored and a response may be replaced by a congruent one (`c17_*_refuted`).
* Distributed signing fails for simulated compound alternatives, for surplus signers and for repeated keys (`c60_*_refuted`).
* A Diffie-Hellman secret read from bytes need not belong to its tuple (`c74_tuple_refuted`).

Scripts and their encoding
* A binary operation with a literal collection of Booleans on the left is read back as another expression (`c22_bools_operand_refuted`).
* Header bits 5-7, leftover bytes within the announced size and superfluous size bytes are lost, so bytes and ids change (`c25_*_refuted`, `c27_received_bytes_refuted`).
* `proposition()` of a script with segregated constants replaces its inline constants too (`c69_inline_refuted`).
* Definitions inside a box constant leak into the enclosing script's reader (`c81_transaction_refuted`).
* The pair type (Short, Short) has two encodings (`c20_type_bytes_canonical_refuted`).

Evaluation
* MIN % -1 fails, BigInt remainder needs a positive divisor (`c51_*_refuted`); BigInt is never cast down (`c52_downcast_after_upcast_refuted`); byteArrayToLong sign-extends every byte (`c54_roundtrip_refuted`).
* indexOf ignores its start, patch with a negative index duplicates, flatMap fails or yields a wrong element type (`c53_*_refuted`).
* Bindings leak at top level, repeated definitions clobber the surrounding ones, functions see the bindings of their caller (`c55_*_refuted`); defaults are evaluated eagerly (`c56_defaults_refuted`).
* A script can run for ever by deserializing itself (`c76_terminates_refuted`).
* Reduction panics for results that are not propositions and for scripts its diagnostics cannot print; substConstants panics for long values (`c75_*_refuted`).
* A script may have another type than its value: branches of a conditional, the function of a fold and the items of a collection are not compared, a default may be a function, an identifier takes the type it was given last, registers are handed out at any type, flatMap and header.stateRoot return something else than declared (`c79_*_refuted`).
* Declared register types are unchecked, header.stateRoot is bytes, five CONTEXT properties cannot be evaluated (`c83_*_refuted`).
* atLeast fails for a single proposition or a bound out of range (`c84_at_least_refuted`); xor is not symmetric, decodePoint ignores trailing bytes (`c86_*_refuted`); the number of arguments is unchecked (`c87_arity_refuted`); Byte constants cannot be substituted (`c88_bytes_refuted`).

Boxes, transactions, wallet
* `BoxValue::checked_mul_u32(0)` and parsing a value from text leave the range (`c26_*_refuted`).
* Sums of inputs wrap at 2^64: the builder and the selector can lose or create 2^64 nanoERG (`c30_value_refuted`, `c32_value_refuted`).
* The selector stops at a change of one million nanoERG, which does not pay for two change boxes: with 123 kinds of tokens it fails however much is on offer, depending on the order of the boxes (`c96_selection_found_refuted`).
* The box builder panics for small boxes (`c33_no_panic_refuted`); `NonMandatoryRegisters::get` reads the wrong register (`c34_get_refuted`); a two-byte character panics the register name parser (`c70_reg_name_panics_refuted`).
* Empty proofs, 65536-byte proofs and 256 context variables are lost when written (`c63_*_refuted`); repeated token ids in a received table shift positions (`c72_token_table_refuted`).
* The size estimate is 54 bytes per input too small (`c64_estimate_refuted`).
* Addresses: empty scripts cannot be read back, trailing bytes after a key are accepted, unknown network bytes are accepted by the testnet encoder (`c35_*_refuted`); script-hash scripts cannot be read back and are recognised without looking at what is hashed (`c36_*_refuted`).
* Derivation paths: malformed components are dropped, apostrophes are stripped anywhere, the last normal index overflows into a hardened one, a shorter path panics, 256 components are announced as none (`c38_*`, `c39_short_path_refuted`, `c73_length_refuted`).

Merkle trees, headers, NIPoPoW, peers
* Batch proofs: repeated indices, positions and internal nodes are not checked (`c43_*_refuted`); an all-zero sibling becomes an absent one (`c44_zero_hash_refuted`).
* A run of 256 equal interlinks panics (`c45_long_run_refuted`); the first NIPoPoW proof is stored unchecked and can block every later one (`c46_*_refuted`); m = 0, negative levels and zero difficulty break the comparison (`c47_*_refuted`); the interlinks check ignores the header (`c65_*_refuted`); the prover panics for m = 0 (`c66_zero_m_refuted`).
* Autolykos index generation panics when a window is divisible by the table size (`c49_indexes_refuted`).
* A header with unknown new fields gets the id of other bytes (`c50_unknown_fields_refuted`).
* An empty agent name cannot be read back (`c58_empty_agent_refuted`).

JSON
* The outputs of a transaction document may claim any transaction and position (`c91_output_place_refuted`).
* A header without a distance, as every header of version 2 read from bytes, is written with `"d": null` and refused on reading (`c92_header_refuted`, `c92_header_bytes`); the identifier of a header is not checked (`c92_header_id_refuted`); a proposition with operation "true" and condition false is read as false (`c92_constant_refuted`); the empty position is refused (`c92_position_refuted`).
* A register named by one two-byte character, a vote that is no natural number and a hint for a threshold above its propositions panic; votes are truncated to a byte; box values out of bounds are accepted (`c93_*_refuted`).

Compiler
* Every source with -, * or / between terms aborts in `todo!()` (`c97_operators_refuted`); describing an error at offset 0 underflows (`c97_describe_refuted`).
* Definitions, parenthesised expressions and negative numbers before or after the expression are ignored (`c98_ignored_refuted`); identifiers are bound one level deep only, so HEIGHT + 1 + 2 fails and 1 + 2 + HEIGHT compiles (`c98_position_refuted`); only the outermost operands are type checked (`c98_ill_typed_refuted`); every script that compiles is a number and cannot be satisfied (`c98_unspendable_refuted`).
* Type assignment visits a sum of n terms at least 2^(n/2) times (`c99_exponential_refuted`).

Resources and network
* An expression of six bytes makes the reader reserve room for 2^32 - 1 expressions; a script of seven bytes does so and is otherwise accepted (`c100_reserved_refuted`).
* Nesting is not limited: each further byte `0xEF` (negation) makes the reader, and later the evaluator, recurse once more; the reference implementation refuses more than 110 levels (`c101_*_refuted`).
* A peer specification that declares a port above 65535 is read as one without an address, and written back differently (`c58_port_dropped_refuted`).
* Peer discovery never returns if the host of one seed has no address, and panics for seeds that cannot carry a port (`c103_*_refuted`); a seed can be asked twice, and any number of request tasks may be at work (`c104_*_refuted`).
* Peer discovery for Chrome never returns from a single live seed, after a failed `/peers/all`, or when the timeout strikes while the peers of a node are to be asked for; with a limit of one or two it asks nothing after the first request (`c107_*_refuted`); a later call may ask visited nodes again (`c108_again_refuted`).
* Timers in browsers: once 19 callbacks wait for far-away delays, a short delay is not served until one of them is due (`c111_late_refuted`); delays above 2^31 - 1 ms keep the browser busy (`c111_sleep_refuted`); a delay that fired before the timer was dropped is done at once when reset to a later time, and so it is after 2^30 resets (`c110_reset_gone_refuted`, `c110_wrap_refuted`); intervals of zero panic, those with a fraction of a millisecond give past instants, and all are always ready once the timer is gone (`c112_*_refuted`).
* The reader builds `And`, `Or`, `XorOf`, `If`, `Fold`, `Exponentiate`, `MultiplyGroup`, `TreeLookup`, `CreateProveDhTuple`, `Upcast`, `Downcast`, `DeserializeRegister` and all binary operations without looking at the types of the operands (`c113_unchecked_refuted`, `c113_binary_refuted`); elsewhere a function passes for its result (`c113_function_refuted`), and a script with a function as default of a collection of functions is not read (`c113_function_default_refuted`).
* `wordlist/french.txt` begins with a byte order mark, so the first French word is U+FEFF followed by `abaisser`; a phrase with that word, typed without the invisible mark, is another text and gives another seed (`c114_french_refuted`).
* A transaction handed to a dApp as an EIP-12 document and back has the context-extension variables of its inputs sorted by JavaScript. If they were in another order the unsigned transaction comes back with another message to sign (`c115_js_order_refuted`) and the signed one is refused with InvalidTxId (`c115_js_refused_refuted`). In plain `to_json` documents amounts above 2^53 change on the way (`c115_plain_refuted`).
* `Constant.from_js` panics on an empty array and on tuples without 2 to 255 items (`c116_empty_refuted`), takes numbers that are no Int for others without an error (2^31 becomes 2^31 - 1, 1.5 becomes 1, NaN becomes 0: `c116_number_refuted`) and accepts arrays of several types, `[1, 5n]` gives a constant without a type that is read back as the collection of 1 and -1 (`c116_mixed_refuted`). `to_js` writes tuples without the token, so a pair comes back as a collection (`c116_tuple_refuted`); Booleans are refused (`c116_boolean_refuted`), Byte and Short come back as Int (`c116_small_refuted`).
* A triple can be extracted as a pair, its last item is dropped (`c117_more_items_refuted`); an empty collection can be extracted as a vector of any type (`c117_empty_refuted`).
* Thirty bytes are read as a script without deserialization whose evaluation never ends: `{ def f(x) = true; def f(x) = f(x); f(5) }`. The reader takes the type of the inner call from the first definition, the evaluator looks the identifier up when it is called (`c76_redefined_refuted`). With every identifier bound once, `(x => x(x))(x => x(x))` is read too, because a conditional has the type of its first branch whatever the other one is (`c76_bound_once_refuted`). The evaluator recurses on the stack, so anyone who checks a transaction that spends such a box is aborted by a stack overflow.
* A simulated block stream panics when the first nonce of a block selects the table index zero (about one block in two million); the next nonce is never tried (`c118_zero_index_refuted`). This is the panic of C49 seen from the miner.
* A tree with stored constants pretty prints without them: `sigmaProp(true)` and `sigmaProp(false)` both print as `sigmaProp()` (`c119_stored_constants_refuted`). Operators print without parentheses, so that `5 - (3 - 1) == 3`, which holds, and `(5 - 3) - 1 == 3`, which does not, have the same text (`c119_same_text_refuted`). Every function in place moves all later lines two columns to the right (`c119_indentation_refuted`).
* Casts, conditionals, applications and some thirty other kinds of node have no source position; an error in one of them is reported at position 0, although the expression around it has a position (`c119_no_position_refuted`, `c120_unplaced_refuted`).
* Showing an evaluation error installs a process-wide error hook and unwraps the result, so that the second evaluation error that is shown in a process panics (`c120_second_report_refuted`; this rests on the documented contract of `miette::set_hook`, whose source is not at hand. The tests that showed errors are commented out).
* Message signing has no domain separation: the bytes of an unsigned transaction signed as a "message" for a public-key address are a valid spending proof for every box of the address in that transaction (`c121_message_spends`, `c121_separation_refuted`).
* Adding a secret to a wallet can break signing: the wallet with key `b` signs `(a || a) || b`; after key `a` is added it returns a signature that is rejected (`c121_add_secret_refuted`; the cause is that of `c10_prover_complete_refuted`).
* `TransactionHintsBag` files a wallet's own commitments, with their secret randomness, under `public_hints` (`publicHints` in JSON) and the proofs made from published signatures under `secret_hints`. A party that sends its public hints to the co-signers and then publishes its proof has given away its key; `steal` computes it (`c122_public_hints_give_key`, `c122_public_hints_refuted`).
* `RequestHandle::abort` calls the abort callback unconditionally. After the request has finished, or when the abort falls into a poll that finishes, the completion callback and the abort callback are both called with the same user data, which the iOS bindings release in both: a double release (`c124_released_once_refuted`). Deleting the runtime drops a waiting request without any callback (`c124_always_called_refuted`). A null pointer for the request handle is not checked and is written through after the task was started (`c124_null_handle_refuted`).
* Through the C interface, the length of a null collection ends the process instead of giving an error (`c123_null_reported_refuted`). `delete_c_string_collection` frees the strings and the array, not the block that points to them (`c123_strings_leak_refuted`).
* Reading a list of the network format reserves memory for the claimed number
  of items before the first is read: five bytes ask for 2^32 - 1 items, which
  panics where addresses have 32 bits (`c126_quiet_refuted`) and may exhaust
  memory elsewhere (`c126_reserved_refuted`).  Optional values accept any tag
  but zero, and trailing bytes are ignored (`c126_canonical_refuted`).
* A time limit on a future whose timer does not exist (any more) is reported as
  passed at the first poll, whatever time was given
  (`c127_never_early_refuted`), and a stream with a limit per item then gives a
  time-out at every poll (`c127_stream_spins_refuted`).
* In browsers a time limit on a request is cut to 32 bits: from 2^31 milliseconds
  (25 days) on it is negative and aborts the request at once
  (`c128_timeout_refuted`).  The timer is cleared when the status arrives, so the
  limit does not cover the body, as is documented (`c128_body_limit_refuted`).
  Requests without CORS get answers without a URL from other sites, on which the
  client throws (`c128_no_cors_refuted`).  Of several default values of a header
  only the last is sent (`c128_default_values_refuted`).
* Node versions are compared as texts: 4.0.13 counts as at least 4.0.100 and 10.0.0 does not (`c105_version_refuted`).

### Testing the theorems

`seeded/LOG.jsonl` records edits of the model that imitate realistic bugs, made in a scratch copy, with the theorems
that stopped proving and what was tightened when none did.

## 5. Print Assumptions

Run over all 692 theorems of MANIFEST.json with Coq 8.16.1.  "Closed under the global context" (no axioms at all) for 692 of them.
