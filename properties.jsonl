{"id": "C01", "title": "Unsigned VLQ round trip", "statement": "Writing any u16/u32/u64 with the put_* writer and then reading it back with the matching get_* reader from the written bytes followed by arbitrary other bytes yields the same number and leaves exactly the other bytes unread.", "quantifier": "all values of each unsigned width and all trailing byte strings", "why_tests_cant": "2^64 values times every continuation of the stream; tests sample a few", "anchors": ["sigma-ser/src/vlq_encode.rs: WriteSigmaVlqExt::put_u16/put_u32/put_u64, ReadSigmaVlqExt::get_u16/get_u32/get_u64"]}
{"id": "C02", "title": "Signed ZigZag/VLQ round trip", "statement": "Writing any i16, i32 or i64 with put_i16/put_i32/put_i64 and reading it back with the matching reader returns the same number and leaves the rest of the stream untouched, including the negative extremes where 32-bit values are sign-extended into ten-byte encodings.", "quantifier": "all signed values of each width, all trailing byte strings", "why_tests_cant": "the sign-extension path differs between small and large magnitudes and every value must survive", "anchors": ["sigma-ser/src/zig_zag_encode.rs: encode_i32, decode_u32, encode_i64, decode_u64", "sigma-ser/src/vlq_encode.rs: put_i16, put_i32, put_i64, get_i16, get_i32, get_i64"]}
{"id": "C03", "title": "VLQ reader is bounded and rejects out-of-range narrow values", "statement": "On every byte string the u64 reader either fails or returns a number below 2^64 having consumed between one and ten bytes, ending at the first byte without continuation bit; the u16/u32 readers never return a number outside their type; the writer always emits the shortest encoding (between one and ten bytes).", "quantifier": "all byte strings, all numbers", "why_tests_cant": "ranges over every possible input stream including adversarial ones", "anchors": ["sigma-ser/src/vlq_encode.rs: get_u64, get_u32, get_u16, put_u64"]}
{"id": "C04", "title": "Bit arrays, short strings and options round trip", "statement": "A list of booleans written with put_bits is recovered by get_bits given its length; a short string of at most 255 bytes is recovered by get_short_string and longer ones are refused by the writer; an optional value is recovered by get_option whenever its element codec round-trips.", "quantifier": "all boolean lists, all strings, all element codecs, all trailing bytes", "why_tests_cant": "lengths are unbounded and the bit padding depends on the length modulo eight", "anchors": ["sigma-ser/src/vlq_encode.rs: put_bits, get_bits, put_short_string, get_short_string, put_option, get_option"]}
{"id": "C05", "title": "GF(2^192) is a field", "statement": "Addition and multiplication of the 192-bit field elements exposed by the gf2_192 crate satisfy the commutative ring laws with 0 and 1, and distribute.", "quantifier": "all triples of 192-bit elements", "why_tests_cant": "2^576 triples; the threshold-signature algebra relies on every one", "anchors": ["gf2_192/src/gf2_192.rs: Add, Mul, multiply, is_zero, is_one"]}
{"id": "C06", "title": "GF(2^192) multiplication computes polynomial product modulo the pentanomial", "statement": "The table-driven product of two elements (and the product by a small integer) equals the schoolbook product of the two bit polynomials reduced modulo x^192+x^7+x^2+x+1.", "quantifier": "all pairs of elements; all element/byte pairs", "why_tests_cant": "the 4-bit window implementation has data dependent carries that tests sample sparsely", "anchors": ["gf2_192/src/gf2_192.rs: multiply, mul_by_i8"]}
{"id": "C07", "title": "GF(2^192) inversion", "statement": "For every non-zero element the inverse returned by invert multiplies with it to one, and repeated squaring by table equals repeated multiplication.", "quantifier": "all non-zero elements", "why_tests_cant": "2^192-1 elements, table driven Frobenius powers", "anchors": ["gf2_192/src/gf2_192.rs: invert, power_2_to_2_to_k, POW_TABLE_0/1/2"]}
{"id": "C08", "title": "Interpolation passes through every given point", "statement": "Polynomial interpolation over distinct non-zero byte abscissae, with or without a prescribed value at zero, succeeds and returns a polynomial of degree below the number of conditions that takes the prescribed value at every given point (and at zero).", "quantifier": "all lists of distinct non-zero byte points with matching values of any admissible length", "why_tests_cant": "quantifies over all field values and point sets", "anchors": ["gf2_192/src/gf2_192poly.rs: Gf2_192Poly::interpolate, evaluate"]}
{"id": "C09", "title": "Field element and polynomial byte conversions are inverse", "statement": "Converting a field element to 24 bytes and back is the identity in both directions; encoding a polynomial to bytes and decoding it with the same constant term is the identity; wrong lengths are refused.", "quantifier": "all 24 byte strings, all polynomials", "why_tests_cant": "all 2^192 values and all degrees", "anchors": ["gf2_192/src/gf2_192.rs: From<Gf2_192> for [u8;24], From<[u8;24]>", "gf2_192/src/gf2_192poly.rs: to_bytes, TryFrom<CoefficientsByteRepr>"]}
{"id": "C10", "title": "Prover completeness", "statement": "Whenever the secrets held by the prover suffice for a proposition (AND/OR/threshold tree of discrete-log and Diffie-Hellman-tuple statements), prove succeeds for every message and every random choice, and verify accepts the produced proof bytes for that proposition and message.", "quantifier": "all propositions, secret sets, messages, random tapes, hash functions and prime-order groups", "why_tests_cant": "unbounded trees, all nonces and all possible hash outcomes", "anchors": ["ergotree-interpreter/src/sigma_protocol/prover.rs: Prover::prove, generate_proof, prove_to_unchecked", "ergotree-interpreter/src/sigma_protocol/verifier.rs: Verifier::verify, verify_signature"]}
{"id": "C11", "title": "Prover refuses when secrets are insufficient", "statement": "If the available secrets do not satisfy the proposition, prove returns an error and produces no proof bytes.", "quantifier": "all propositions and all secret sets", "why_tests_cant": "the set of insufficient combinations is unbounded", "anchors": ["ergotree-interpreter/src/sigma_protocol/prover.rs: prove_to_unchecked, mark_real, TreeRootIsNotReal"]}
{"id": "C12", "title": "Verifier acceptance is exactly the sigma-protocol relation", "statement": "verify accepts non-trivial propositions only if the proof decodes to challenges and responses such that AND children carry the parent challenge, OR children's challenges xor to the parent's, threshold children's challenges lie on a polynomial of degree at most n-k through the parent's challenge, each leaf's reconstructed commitment satisfies its verification equation, and the root challenge equals the hash of the proposition tree with those commitments and the message.", "quantifier": "all propositions, messages and proof byte strings", "why_tests_cant": "adversarial proof bytes are unbounded", "anchors": ["ergotree-interpreter/src/sigma_protocol/verifier.rs: verify_signature, compute_commitments, check_commitments", "ergotree-interpreter/src/sigma_protocol/sig_serializer.rs: parse_sig_compute_challenges"]}
{"id": "C13", "title": "Special soundness of the composed protocol", "statement": "From two accepted transcripts of one proposition with equal commitments but different root challenges, secrets satisfying the proposition can be computed.", "quantifier": "all propositions and all pairs of accepting transcripts", "why_tests_cant": "quantifies over all adversarial transcripts; this is the reason a forged signature is infeasible", "anchors": ["ergotree-interpreter/src/sigma_protocol/verifier.rs: compute_commitments", "ergotree-interpreter/src/sigma_protocol/dlog_protocol.rs: compute_commitment", "ergotree-interpreter/src/sigma_protocol/dht_protocol.rs: compute_commitment"]}
{"id": "C14", "title": "Simulated leaves verify", "statement": "For any statement, challenge and response, the commitment chosen by the simulator is the one the verifier reconstructs, so statements whose secret is unknown can be simulated in OR/threshold branches.", "quantifier": "all group elements, challenges and responses", "why_tests_cant": "all field and group values", "anchors": ["ergotree-interpreter/src/sigma_protocol/dlog_protocol.rs: simulate, compute_commitment", "ergotree-interpreter/src/sigma_protocol/dht_protocol.rs: simulate, compute_commitment"]}
{"id": "C15", "title": "Signature encoding round trip", "statement": "Decoding the bytes produced from a proof tree, against the same proposition, restores every challenge and response of the tree.", "quantifier": "all well-formed proof trees (challenges related as the protocol demands)", "why_tests_cant": "unbounded trees and all field values", "anchors": ["ergotree-interpreter/src/sigma_protocol/sig_serializer.rs: serialize_sig, sig_write_bytes, parse_sig_compute_challenges"]}
{"id": "C16", "title": "Fiat-Shamir input is injective", "statement": "Two proof trees that differ in structure, statement, threshold or any commitment are serialised to different strings before hashing, and the string followed by the message determines both.", "quantifier": "all pairs of proof trees within the format's 16-bit length limits", "why_tests_cant": "a single ambiguous encoding would let one signature serve two statements", "anchors": ["ergotree-interpreter/src/sigma_protocol/fiat_shamir.rs: fiat_shamir_tree_to_bytes, fiat_shamir_write_bytes"]}
{"id": "C17", "title": "Proof bytes are unique (non-malleable)", "statement": "For a given proposition and message, changing any byte of an accepted proof (including appending bytes or changing a response by the group order) makes verify reject.", "quantifier": "all accepted proofs and all modifications", "why_tests_cant": "all byte strings", "anchors": ["ergotree-interpreter/src/sigma_protocol/sig_serializer.rs: parse_sig_compute_challenges, read_scalar"]}
{"id": "C18", "title": "Sigma proposition serialisation round trip", "statement": "Serialising any sigma proposition and parsing it back, with arbitrary bytes following, yields the same proposition.", "quantifier": "all sigma propositions (AND/OR 2..255 children, thresholds, leaves, constants)", "why_tests_cant": "unbounded nesting", "anchors": ["ergotree-ir/src/serialization/sigmaboolean.rs: SigmaBoolean::sigma_serialize/sigma_parse", "ergotree-ir/src/sigma_protocol/sigma_boolean/{cand,cor,cthreshold}.rs"]}
{"id": "C19", "title": "Normalisation preserves the meaning of sigma propositions", "statement": "Normalising an AND, OR or at-least-k of propositions yields a proposition that is provable with exactly the same sets of secrets, and that contains a trivially true/false child only if it is itself trivial at that level.", "quantifier": "all child lists and bounds, all secret sets", "why_tests_cant": "case analysis over unbounded lists", "anchors": ["ergotree-ir/src/sigma_protocol/sigma_boolean/cand.rs: Cand::normalized", "cor.rs: Cor::normalized", "cthreshold.rs: Cthreshold::reduce"]}
{"id": "C20", "title": "Type serialisation round trip", "statement": "Every serialisable type descriptor is recovered when its bytes, followed by anything, are parsed.", "quantifier": "all types (primitives, collections, options, tuples 2..255, type variables), any nesting", "why_tests_cant": "the compact codes overlap unless every combination is checked", "anchors": ["ergotree-ir/src/serialization/types.rs: SType::sigma_serialize, sigma_parse, TypeCode"]}
{"id": "C21", "title": "Constant serialisation round trip", "statement": "Every constant the library can serialise is recovered, with its type, from its bytes followed by anything.", "quantifier": "all well-typed values of serialisable types", "why_tests_cant": "unbounded nesting and sizes, bit-packed boolean collections, variable-length integers", "anchors": ["ergotree-ir/src/serialization/data.rs: DataSerializer", "ergotree-ir/src/serialization/constant.rs"]}
{"id": "C22", "title": "Script expression serialisation round trip", "statement": "Every script expression the library can serialise parses back to an equal expression and leaves following bytes unread.", "quantifier": "all expressions over the supported operations, any depth", "why_tests_cant": "about seventy node kinds combined arbitrarily", "anchors": ["ergotree-ir/src/serialization/expr.rs: Expr::sigma_serialize, parse_with_tag", "ergotree-ir/src/mir/*.rs"]}
{"id": "C23", "title": "Constant segregation is transparent", "statement": "Building an ErgoTree with constant segregation and asking for its proposition returns the original expression, and the template bytes do not depend on the values of segregated constants.", "quantifier": "all expressions and headers", "why_tests_cant": "all expressions with any number and placement of constants", "anchors": ["ergotree-ir/src/ergo_tree.rs: ErgoTree::new, proposition, template_bytes"]}
{"id": "C24", "title": "Constant substitution touches only its target", "statement": "Replacing the i-th constant of a tree succeeds exactly for an in-range index with equal type; afterwards constant i is the new one, all others and the template are unchanged.", "quantifier": "all trees, indices and constants", "why_tests_cant": "all trees and indices", "anchors": ["ergotree-ir/src/ergo_tree.rs: ErgoTree::with_constant, get_constant, get_constants, constants_len"]}
{"id": "C25", "title": "ErgoTree bytes are preserved", "statement": "Parsing ErgoTree bytes and serialising the result gives back the same bytes whether or not the tree was understood, so box and address identity never changes by going through the library.", "quantifier": "all byte strings accepted by the parser", "why_tests_cant": "adversarial or future-version trees", "anchors": ["ergotree-ir/src/ergo_tree.rs: sigma_parse_bytes, sigma_parse, sigma_serialize", "ergotree-ir/src/ergo_tree/tree_header.rs: ErgoTreeHeader::new, serialized"]}
{"id": "C26", "title": "Box value and token amount arithmetic never leaves its range", "statement": "Construction and checked addition, subtraction, multiplication and summation of nanoERG values and token amounts return the exact mathematical result when it lies within the declared bounds and an error otherwise.", "quantifier": "all operands and all lists of operands", "why_tests_cant": "64-bit ranges and arbitrary long sums", "anchors": ["ergotree-ir/src/chain/ergo_box/box_value.rs: BoxValue", "ergotree-ir/src/chain/token.rs: TokenAmount"]}
{"id": "C27", "title": "Box serialisation round trip and identity", "statement": "Serialising any box (alone, or inside a transaction with the shared token table) and parsing it back yields an equal box, and two boxes with the same bytes have the same box id.", "quantifier": "all boxes: values, scripts, up to 122 tokens, up to 6 registers, any shared token table containing the tokens", "why_tests_cant": "combinatorial content", "anchors": ["ergotree-ir/src/chain/ergo_box.rs: sigma_serialize, sigma_parse, serialize_box_with_indexed_digests, parse_box_with_indexed_digests, calc_box_id"]}
{"id": "C28", "title": "Transaction serialisation round trip", "statement": "Serialising any transaction and parsing it back yields an equal transaction with the same id, whatever follows in the stream.", "quantifier": "all transactions (inputs, data inputs, outputs with any tokens, context extensions, proofs)", "why_tests_cant": "unbounded collections", "anchors": ["ergo-lib/src/chain/transaction.rs: Transaction::sigma_serialize, sigma_parse, distinct_token_ids"]}
{"id": "C29", "title": "Transaction id does not depend on proofs", "statement": "The id of a signed transaction equals the id of the unsigned transaction it was made from, and does not change when spending proofs are replaced; output box ids are derived from that id and their position.", "quantifier": "all transactions and all proof replacements", "why_tests_cant": "all proof byte strings", "anchors": ["ergo-lib/src/chain/transaction.rs: Transaction::new, from_unsigned_tx, bytes_to_sign", "ergo-lib/src/chain/transaction/unsigned.rs: bytes_to_sign"]}
{"id": "C30", "title": "Built transactions conserve value", "statement": "Whenever the transaction builder succeeds, the sum of the selected inputs' nanoERGs equals the sum of the outputs including change and the miner fee box, no input is spent twice, and the fee box carries exactly the requested fee; every input carries exactly the context variables set for its box, and the data inputs are those given.", "quantifier": "all selections, output lists, fees and change addresses", "why_tests_cant": "all input combinations", "anchors": ["ergo-lib/src/wallet/tx_builder.rs: TxBuilder::build, build_tx"]}
{"id": "C31", "title": "Built transactions conserve tokens", "statement": "Whenever the transaction builder succeeds, for every token other than one minted with the first input's id the amount in the inputs equals the amount in the outputs plus the amount permitted to be burned; tokens are never created, and never burned without an exact permit.", "quantifier": "all token distributions, permits and mints", "why_tests_cant": "all token maps", "anchors": ["ergo-lib/src/wallet/tx_builder.rs: check_unused_token_burn_permit, check_enough_token_burn_permit, vec_tokens_to_map", "ergo-lib/src/wallet/box_selector.rs: sum_tokens, sum_tokens_from_boxes, subtract_tokens"]}
{"id": "C32", "title": "Box selection covers the target and returns exact change", "statement": "When the simple selector succeeds, the selected boxes are a sub-list of those offered, their total value and tokens equal the target plus the change boxes, and every change box has an admissible value; when it fails for lack of funds the offered boxes really do not cover the target.", "quantifier": "all offered boxes, targets and token demands", "why_tests_cant": "all lists of boxes", "anchors": ["ergo-lib/src/wallet/box_selector/simple.rs: SimpleBoxSelector::select, make_change_boxes, check_input_preservation"]}
{"id": "C33", "title": "Box builder enforces minimum value and minting rules", "statement": "A box candidate is built only if its value is at least its serialised size times the value per byte; minting a token is refused when other tokens or registers R4-R6 are present, and otherwise yields exactly the EIP-4 registers; it never panics.", "quantifier": "all builder states", "why_tests_cant": "all combinations of fields", "anchors": ["ergo-lib/src/chain/ergo_box/box_builder.rs: ErgoBoxCandidateBuilder::build, build_box_unchecked, calc_min_box_value"]}
{"id": "C34", "title": "Registers are densely packed and retrievable", "statement": "Building the register set from a map succeeds only if ids are consecutive from R4, and looking up any register returns the value stored for that id; serialising and parsing the set is the identity.", "quantifier": "all register maps and ids", "why_tests_cant": "all subsets of registers and values", "anchors": ["ergotree-ir/src/chain/ergo_box/register.rs: NonMandatoryRegisters::new, get, get_constant, sigma_serialize, sigma_parse"]}
{"id": "C35", "title": "Address encoding round trip", "statement": "Encoding any address for a network and decoding the text gives back the same address and network; text whose checksum, length, network or type byte is wrong is rejected.", "quantifier": "all addresses, networks and strings", "why_tests_cant": "all strings", "anchors": ["ergotree-ir/src/chain/address.rs: AddressEncoder::address_to_str, parse_address_from_str, unchecked_parse_network_address_from_str", "NetworkAddress::to_base58"]}
{"id": "C36", "title": "Address and script correspond", "statement": "The script of a P2PK, P2SH or P2S address is recognised again as an address with the same script, so recreating an address from the script it produced never changes who can spend.", "quantifier": "all addresses and scripts", "why_tests_cant": "all scripts", "anchors": ["ergotree-ir/src/chain/address.rs: Address::script, recreate_from_ergo_tree"]}
{"id": "C37", "title": "Base58 round trip", "statement": "Base58 decoding inverts encoding for all byte strings including leading zeros, and two byte strings never share an encoding.", "quantifier": "all byte strings", "why_tests_cant": "all lengths", "anchors": ["ergotree-ir/src/chain/address.rs: address_to_str (bs58 encode), parse_address_from_str (bs58 decode)"]}
{"id": "C38", "title": "Derivation path text round trip and rejection", "statement": "Printing a derivation path and parsing the text yields the same path; text with a malformed component is rejected.", "quantifier": "all paths and strings", "why_tests_cant": "all strings", "anchors": ["ergo-lib/src/wallet/derivation_path.rs: DerivationPath Display/FromStr, ChildIndex::from_str, to_bits, next"]}
{"id": "C39", "title": "Public and private key derivation agree", "statement": "Deriving a non-hardened child from an extended secret key and then taking its public key equals deriving the same child from the extended public key, for whole relative paths, including the skip-to-next-index rule; hardened derivation from a public key is refused.", "quantifier": "all keys, chain codes, paths and HMAC functions", "why_tests_cant": "all keys and all indices", "anchors": ["ergo-lib/src/wallet/ext_secret_key.rs: child, derive, public_key", "ergo-lib/src/wallet/ext_pub_key.rs: child, derive"]}
{"id": "C40", "title": "Merkle proofs are complete", "statement": "For every non-empty list of leaves and every leaf position, the tree produces a proof that validates against the tree's root and carries that leaf's data.", "quantifier": "all leaf lists and indices, all hash functions", "why_tests_cant": "all sizes including non-powers of two", "anchors": ["ergo-merkle-tree/src/merkletree.rs: MerkleTree::new, proof_by_index, root_hash", "ergo-merkle-tree/src/merkleproof.rs: MerkleProof::valid"]}
{"id": "C41", "title": "Merkle proofs are sound", "statement": "A proof that validates against the root of a tree carries the data of one of the tree's leaves, unless a hash collision is exhibited.", "quantifier": "all trees, all proofs, all hash functions", "why_tests_cant": "adversarial proofs", "anchors": ["ergo-merkle-tree/src/merkleproof.rs: MerkleProof::valid", "ergo-merkle-tree/src/lib.rs: prefixed_hash, prefixed_hash2"]}
{"id": "C42", "title": "Merkle multiproofs are complete", "statement": "For every tree and every non-empty set of existing leaf indices the produced batch proof validates against the root.", "quantifier": "all trees and index sets", "why_tests_cant": "exponentially many index sets", "anchors": ["ergo-merkle-tree/src/merkletree.rs: proof_by_indices, build_multiproof", "ergo-merkle-tree/src/batchmerkleproof.rs: BatchMerkleProof::valid"]}
{"id": "C43", "title": "Merkle multiproofs are sound", "statement": "Every (index, hash) pair listed in a batch proof that validates against a tree root is the hash of the tree's leaf at that index, unless a hash collision is exhibited.", "quantifier": "all trees and batch proofs", "why_tests_cant": "adversarial proofs", "anchors": ["ergo-merkle-tree/src/batchmerkleproof.rs: BatchMerkleProof::valid"]}
{"id": "C44", "title": "Batch proof serialisation round trip", "statement": "Serialising a batch proof and parsing it yields the same proof.", "quantifier": "all batch proofs with 32-bit indices", "why_tests_cant": "all contents", "anchors": ["ergo-merkle-tree/src/batchmerkleproof.rs: scorex_serialize, scorex_parse"]}
{"id": "C45", "title": "Interlink packing round trip", "statement": "Packing an interlink vector into extension fields and unpacking it yields the same vector.", "quantifier": "all interlink vectors", "why_tests_cant": "all run-length patterns", "anchors": ["ergo-nipopow/src/nipopow_algos.rs: pack_interlinks, unpack_interlinks"]}
{"id": "C46", "title": "NIPoPoW verifier history invariant", "statement": "After processing any sequence of proofs, the best proof is one of the proofs received, its chain starts at the configured genesis, it is a valid proof, and it is replaced only by a proof that is better.", "quantifier": "all sequences of proofs", "why_tests_cant": "all histories", "anchors": ["ergo-nipopow/src/nipopow_verifier.rs: NipopowVerifier::process, best_proof, best_chain"]}
{"id": "C47", "title": "NIPoPoW proof comparison is a strict order on valid proofs", "statement": "No valid proof is better than itself, two valid proofs with equal security parameter are never each better than the other, the comparison always terminates, and the score counts at level mu only headers whose level is at least mu.", "quantifier": "all pairs of proofs", "why_tests_cant": "all chains and headers", "anchors": ["ergo-nipopow/src/nipopow_proof.rs: is_better_than", "ergo-nipopow/src/nipopow_algos.rs: best_arg, max_level_of, lowest_common_ancestor"]}
{"id": "C48", "title": "Compact difficulty decoding", "statement": "Decoding nBits yields sign * mantissa * 256^(size-3) for every 32-bit compact value.", "quantifier": "all compact values", "why_tests_cant": "2^32 values with sign and short-size corner cases", "anchors": ["ergo-nipopow/src/nipopow_algos.rs: decode_compact_bits"]}
{"id": "C49", "title": "Autolykos helper functions are exact and total", "statement": "Conversion of a non-negative number to a fixed-length byte string is its big-endian representation or an error when it does not fit; the table size is monotone in height and bounded; index generation returns k indices below N for every seed without failing; the hit of a header of version 2 is the one Autolykos version 2 defines, for every header, and that of version 1 the distance in the header.", "quantifier": "all numbers, heights, seeds, headers and hash functions with 32 bytes", "why_tests_cant": "all seeds including ones hitting index zero", "anchors": ["ergo-nipopow/src/autolykos_pow_scheme.rs: as_unsigned_byte_array, calc_big_n, gen_indexes, calc_seed_v2, calc_big_m, pow_hit"]}
{"id": "C50", "title": "Header serialisation round trip", "statement": "Serialising a block header and parsing it yields a header equal in all fields whose id is the hash of its bytes.", "quantifier": "all headers of versions 1 and above", "why_tests_cant": "all field values", "anchors": ["ergo-chain-types/src/header.rs: Header::scorex_serialize, scorex_parse, serialize_without_pow"]}
{"id": "C51", "title": "Script arithmetic is exact or fails", "statement": "Evaluating +,-,*,/,%,negation,min,max and comparisons on the numeric types yields the mathematical result when representable and an error otherwise; it never wraps or panics.", "quantifier": "all operand pairs of each numeric type", "why_tests_cant": "64- and 256-bit operand spaces", "anchors": ["ergotree-interpreter/src/eval/bin_op.rs: eval_plus, eval_minus, eval_mul, eval_div, eval_mod, eval_min, eval_max", "ergotree-interpreter/src/eval/negation.rs", "ergotree-ir/src/bigint256.rs"]}
{"id": "C52", "title": "Numeric casts are exact or fail", "statement": "Upcasting keeps the numeric value; downcasting keeps the numeric value or fails; downcast after upcast is the identity.", "quantifier": "all values and type pairs", "why_tests_cant": "all values", "anchors": ["ergotree-interpreter/src/eval/upcast.rs", "ergotree-interpreter/src/eval/downcast.rs"]}
{"id": "C53", "title": "Collection operations meet their list specification", "statement": "slice, byIndex, getOrElse, indexOf, updated, updateMany, patch, append, zip, indices, filter, map, fold, exists and forall on collections agree with the corresponding total list functions for every index, including negative and out-of-range ones.", "quantifier": "all collections and indices", "why_tests_cant": "unbounded lengths and 32-bit indices", "anchors": ["ergotree-interpreter/src/eval/scoll.rs", "ergotree-interpreter/src/eval/coll_slice.rs", "coll_by_index.rs", "coll_filter.rs", "coll_fold.rs", "coll_map.rs", "coll_exists.rs", "coll_forall.rs", "coll_append.rs"]}
{"id": "C54", "title": "Long/byte-array conversion round trip", "statement": "Converting any Long to a byte array and back yields the same Long, and byteArrayToLong reads the first eight bytes as a big-endian two's complement number.", "quantifier": "all 64-bit integers and byte arrays", "why_tests_cant": "2^64 values", "anchors": ["ergotree-interpreter/src/eval/long_to_byte_array.rs", "ergotree-interpreter/src/eval/byte_array_to_long.rs"]}
{"id": "C55", "title": "Evaluation keeps variable scopes separate", "statement": "Evaluating any expression leaves the bindings visible to the surrounding code unchanged, so a value defined inside a nested block or lambda is never visible after it.", "quantifier": "all expressions, environments and contexts", "why_tests_cant": "all nestings of blocks, lambdas and collection operations", "anchors": ["ergotree-interpreter/src/eval/block.rs", "ergotree-interpreter/src/eval/apply.rs", "ergotree-interpreter/src/eval/coll_map.rs"]}
{"id": "C56", "title": "Conditional and logical operators are lazy", "statement": "If only the taken branch of if, and the right operand of && and || only when needed, are evaluated: errors in the other branch do not affect the result.", "quantifier": "all sub-expressions and environments", "why_tests_cant": "all expressions in the untaken branch", "anchors": ["ergotree-interpreter/src/eval/if_op.rs", "ergotree-interpreter/src/eval/bin_op.rs: LogicalOp"]}
{"id": "C57", "title": "256-bit integers stay in range and arithmetic is exact", "statement": "Every 256-bit integer produced by construction or checked arithmetic lies in [-2^255, 2^255-1] and equals the mathematical result; byte conversion round-trips.", "quantifier": "all integers and operations", "why_tests_cant": "256-bit operand space", "anchors": ["ergotree-ir/src/bigint256.rs: BigInt256 TryFrom, checked_add, checked_sub, checked_mul, checked_div, checked_rem, checked_neg"]}
{"id": "C58", "title": "Peer-to-peer records round trip", "statement": "Serialising a peer specification (names, version, address, features) or protocol version and parsing it yields the same record.", "quantifier": "all records with admissible field sizes", "why_tests_cant": "all contents and trailing bytes", "anchors": ["ergo-p2p/src/peer_spec.rs", "ergo-p2p/src/peer_feature.rs", "ergo-p2p/src/protocol_version.rs", "ergo-chain-types/src/peer_addr.rs"]}
{"id": "C59", "title": "Multi-signature hints are kept per input", "statement": "Adding hints for one input of a transaction never changes the hints of another input, loses none of the previously added commitments or proofs for that input, and retrieving them returns exactly those added.", "quantifier": "all sequences of add/replace operations", "why_tests_cant": "all histories", "anchors": ["ergo-lib/src/wallet/multi_sig.rs: TransactionHintsBag::add_hints_for_input, replace_hints_for_input, all_hints_for_input"]}
{"id": "C60", "title": "Distributed signing completes", "statement": "When the parties' own secrets together with exchanged commitments and partial proofs satisfy the proposition, the last signer's proof is accepted by verify.", "quantifier": "all propositions, partitions of secrets, messages and random tapes", "why_tests_cant": "all interleavings of signers and propositions", "anchors": ["ergo-lib/src/wallet/multi_sig.rs: generate_commitments_for, bag_for_multi_sig", "ergotree-interpreter/src/sigma_protocol/prover.rs: hints handling"]}
{"id": "C61", "title": "Transaction context is complete", "statement": "A transaction context is constructed only if every input and data input of the transaction has its box, with each looked-up box having the id named by the input.", "quantifier": "all transactions and box lists", "why_tests_cant": "all lists", "anchors": ["ergo-lib/src/wallet/tx_context.rs: TransactionContext::new, get_input_box"]}
{"id": "C62", "title": "Signing a transaction produces a verifiable transaction", "statement": "If every input's reduced proposition is provable with the wallet's secrets, sign_transaction succeeds and every input of the result verifies over the transaction's bytes to sign; the signed transaction has the same inputs, data inputs, outputs and id.", "quantifier": "all unsigned transactions and secret sets", "why_tests_cant": "all transactions", "anchors": ["ergo-lib/src/wallet/signing.rs: sign_transaction, sign_tx_input, sign_reduced_transaction", "ergo-lib/src/chain/transaction.rs: verify_tx_input_proof"]}
{"id": "C63", "title": "Spending proof and context extension encoding round trip", "statement": "Proof bytes and context extensions written to a transaction input are read back unchanged.", "quantifier": "all proofs and extensions", "why_tests_cant": "all lengths and all key sets", "anchors": ["ergotree-interpreter/src/sigma_protocol/prover/prover_result.rs", "ergotree-interpreter/src/sigma_protocol/prover/context_extension.rs"]}
{"id": "C64", "title": "Size estimate bounds the signed size", "statement": "The size estimated for an unsigned transaction before signing is not smaller than the size of the same transaction with a single-signature proof on each input.", "quantifier": "all unsigned transactions", "why_tests_cant": "all transactions", "anchors": ["ergo-lib/src/wallet/tx_builder.rs: TxBuilder::estimate_tx_size_bytes"]}
{"id": "C65", "title": "Interlinks proof binds interlinks to the header", "statement": "A superblock header whose interlinks proof checks has interlinks committed by its own extension root.", "quantifier": "all headers and interlink proofs", "why_tests_cant": "adversarial proofs", "anchors": ["ergo-nipopow/src/nipopow_proof.rs: PoPowHeader::check_interlinks_proof"]}
{"id": "C66", "title": "NIPoPoW prover makes valid proofs", "statement": "For every well-formed chain from the genesis block (consecutive heights, parent links, interlinks as update_interlinks builds them, checked interlink proofs) and k, m of at least 1, prove returns a proof that is_valid accepts, whose suffix is the last k blocks, whose prefix starts with the genesis block, takes only earlier blocks of the chain, and for each level contains the last m earlier blocks of at least that level.", "quantifier": "all well-formed chains of any length, all block levels, all k and m", "why_tests_cant": "the prefix depends on the levels of all blocks and on every anchor choice; chains are unbounded", "anchors": ["ergo-nipopow/src/nipopow_algos.rs: NipopowAlgos::prove, update_interlinks", "ergo-nipopow/src/nipopow_proof.rs: NipopowProof::is_valid, has_valid_connections"]}
{"id": "C67", "title": "NIPoPoW proof serialization round trip", "statement": "Serializing a NIPoPoW proof or a superblock header and parsing the bytes back yields the same proof, with trailing bytes untouched.", "quantifier": "all proofs whose headers and interlink proofs are serializable, all trailing bytes", "why_tests_cant": "unbounded nested vectors with length prefixes", "anchors": ["ergo-nipopow/src/nipopow_proof.rs: ScorexSerializable for NipopowProof, PoPowHeader"]}
{"id": "C68", "title": "In-memory peer database is a map", "statement": "After any sequence of add_or_update_peer and remove_peer calls, get_peer_by_addr returns exactly the peer left at that address by the last successful call naming it (or nothing), an add reports the peer it replaced and fails only for peers without an address, and a removal fails only when nothing is stored.", "quantifier": "all histories of operations and all addresses", "why_tests_cant": "histories are unbounded", "anchors": ["ergo-p2p/src/peer_database/in_memory.rs: InMemoryPeerDatabase", "ergo-p2p/src/peer_spec.rs: PeerSpec::addr"]}
{"id": "C69", "title": "The proposition of a received script is the script", "statement": "For every script read from bytes, asking for its proposition returns its root with each placeholder replaced by the constant of that number and nothing else changed.", "quantifier": "all scripts accepted by the parser, with or without constant segregation", "why_tests_cant": "the fault needs a script mixing inline constants and placeholders, one among unboundedly many shapes", "anchors": ["ergotree-ir/src/ergo_tree.rs: ErgoTree::proposition", "ergotree-ir/src/serialization/expr.rs: Expr::sigma_serialize"]}
{"id": "C70", "title": "Register names parse exactly or are refused", "statement": "The names R4 to R9 are the only texts accepted as non-mandatory register names, each gives its own register, and any other text is refused with an error rather than a crash.", "quantifier": "all strings", "why_tests_cant": "the crash needs a string whose byte length is two but which is a single character; only a quantified statement covers all strings", "anchors": ["ergotree-ir/src/chain/ergo_box/register/id.rs: TryFrom<String> for NonMandatoryRegisterId"]}
{"id": "C71", "title": "A reduced transaction survives the trip to the offline signer", "statement": "Serializing a reduced transaction and parsing the bytes gives back the same unsigned transaction, the same sigma proposition, cost and context extension for every input, and the same total cost, whatever follows in the stream.", "quantifier": "all unsigned transactions within the format's bounds, all reduced inputs, all following bytes", "why_tests_cant": "the extension of a reduced input is not stored with it but recovered from the transaction, and the propositions are nested without bound; samples cannot show that nothing is misaligned", "anchors": ["ergo-lib/src/chain/transaction/reduced.rs: SigmaSerializable for ReducedTransaction (sigma_serialize, sigma_parse)"]}
{"id": "C72", "title": "A token position in a received transaction names the token the bytes say", "statement": "For every received transaction the i-th position used by an output's token entry names the i-th identifier of the transaction's token table.", "quantifier": "all token tables and positions, including tables with repeated identifiers", "why_tests_cant": "transactions made by the library never repeat an identifier; only a statement over all received bytes reaches the tables where it fails", "anchors": ["ergo-lib/src/chain/transaction.rs: SigmaSerializable for Transaction (sigma_parse)"]}
{"id": "C73", "title": "Ledger encoding of a path", "statement": "The bytes sent to a hardware wallet for a derivation path are the number of components followed by each index as four big-endian bytes with the top bit set exactly for hardened indices, so different paths have different bytes.", "quantifier": "all derivation paths", "why_tests_cant": "every index of 31 bits and every depth; truncation of the count shows only at 256 components", "anchors": ["ergo-lib/src/wallet/derivation_path.rs: DerivationPath::ledger_bytes, ChildIndex::to_bits"]}
{"id": "C74", "title": "Secret keys as bytes", "statement": "Writing a secret key to bytes and reading them back gives the same key; bytes that are read as a discrete-logarithm key are the bytes of that key; exponents at or above the group order and other lengths are refused; the address of a secret key has a script that demands exactly the proof of that key.", "quantifier": "all secret keys and byte strings", "why_tests_cant": "ranges over all 256-bit exponents including those at and above the group order", "anchors": ["ergo-lib/src/wallet/secret_key.rs: SecretKey::to_bytes, from_bytes, get_address_from_public_image", "ergotree-interpreter/src/sigma_protocol/private_input.rs: DlogProverInput::from_bytes, DhTupleProverInput::from_bytes"]}
{"id": "C76", "title": "Evaluation of a script without deserialization ends", "statement": "A script that has no node which deserializes another script, and in which every call goes to a function written in place or bound to an identifier whose body calls only earlier ones, is evaluated in a number of steps: it gives a value, an error or a panic, and never runs for ever. (A script that reads itself from its context extension does run for ever.)", "quantifier": "all such scripts, contexts and environments", "why_tests_cant": "Termination of every script of a class is a statement about unboundedly many scripts and about the absence of an infinite run, which no finite run can show.", "anchors": ["ergotree-interpreter/src/eval/expr.rs", "ergotree-interpreter/src/eval/deserialize_context.rs", "ergotree-interpreter/src/eval/apply.rs"]}
{"id": "C77", "title": "The result of evaluation is unique", "statement": "The result of evaluating a script in a context is one and the same however many steps it is allowed, as soon as it is allowed enough of them; reduction of a script never depends on anything but the script and its context.", "quantifier": "all scripts, contexts, environments and numbers of steps", "why_tests_cant": "It compares all runs of all scripts with one another.", "anchors": ["ergotree-interpreter/src/eval.rs (reduce_to_crypto)", "ergotree-interpreter/src/eval/expr.rs"]}
{"id": "C78", "title": "Equality in scripts is equality of values", "statement": "For operands of any kind (numbers, group elements, propositions, boxes, headers, collections, tuples, options, nested to any depth) == gives true exactly when the two values are equal and != exactly when they are not; collections are equal exactly when they have the same type and the same items at the same positions.", "quantifier": "all pairs of values and all scripts that compute them", "why_tests_cant": "Values nest without bound and equality has to be right on every pair of them.", "anchors": ["ergotree-interpreter/src/eval/bin_op.rs (eval_eq, eval_neq)", "ergotree-ir/src/mir/value.rs (PartialEq for Value)"]}
{"id": "C80", "title": "Authenticated trees change only as permitted and proved", "statement": "insert, update and remove on an authenticated tree fail without the permission of the tree; with it they give the tree whose digest the proof establishes for exactly the given operations in their order, with the same permissions, key length and value length, and fail if the proof does not cover them. contains, get and getMany report exactly what the proof shows for the keys asked for. updateOperations changes only the permissions and updateDigest only the digest.", "quantifier": "all trees, lists of operations, proofs, and every behaviour of the proof verifier", "why_tests_cant": "The lists of operations are unbounded and the statement covers every proof, including forged ones.", "anchors": ["ergotree-interpreter/src/eval/savltree.rs", "ergotree-ir/src/mir/avl_tree_data.rs"]}
{"id": "C81", "title": "What is accepted can be written and read again", "statement": "Every expression, constant, script, box or transaction that is read from any bytes at all can be serialized, and reading the result gives the same value again; the new encoding is at most twice as long as the bytes that were read. (For transactions this fails when a context variable is given twice.)", "quantifier": "all byte strings shorter than 2 GiB, canonical or not, and all reader states", "why_tests_cant": "Received bytes are arbitrary; only a statement over all of them covers the non-canonical encodings that no writer of the library produces.", "anchors": ["ergotree-ir/src/serialization/expr.rs (Expr::sigma_parse, sigma_serialize)", "ergotree-ir/src/serialization/constant.rs", "ergotree-ir/src/ergo_tree.rs (ErgoTree::sigma_parse, sigma_parse_bytes)", "ergotree-ir/src/chain/ergo_box.rs (ErgoBox::sigma_parse)", "ergo-lib/src/chain/transaction.rs (Transaction::sigma_parse)"]}
{"id": "C82", "title": "Reading untrusted bytes never panics", "statement": "Reading an expression, a constant, a script, a box or a transaction from any bytes returns a value or an error and never panics; reading a script that is given alone fails only if its announced length is missing or exceeds the bytes. (Exhaustion of memory or stack is outside the statement.)", "quantifier": "all byte strings shorter than 2 GiB and all reader states", "why_tests_cant": "A single crafted message that panics takes a node or wallet down; the absence of such a message is a statement about every byte string.", "anchors": ["ergotree-ir/src/serialization/expr.rs (Expr::sigma_parse)", "ergotree-ir/src/serialization/data.rs (DataSerializer::sigma_parse)", "ergotree-ir/src/ergo_tree.rs (ErgoTree::sigma_parse_bytes)", "ergotree-ir/src/chain/ergo_box.rs (parse_box_with_indexed_digests)", "ergo-lib/src/chain/transaction.rs (Transaction::sigma_parse)"]}
{"id": "C75", "title": "Evaluating or reducing a script read from bytes never panics", "statement": "For every script the deserializer accepts and every context, evaluating the script and reducing it to a proposition return a value or an error; neither panics, also when the reducer formats the script for its diagnostics.", "quantifier": "every byte string accepted as a script, every context built from boxes and constants that were read, every recursion allowance", "why_tests_cant": "Scripts and contexts are attacker controlled; the claim is about all of them, and the panics come from rare combinations (results of the wrong type, unevaluated ill-typed subexpressions that the printer rebuilds, over-long values).", "anchors": ["ergotree-interpreter/src/eval.rs: reduce_to_crypto", "ergotree-interpreter/src/eval/*.rs", "ergotree-ir/src/pretty_printer.rs, mir/*/print", "ergotree-interpreter/src/eval/subst_const.rs", "ergotree-interpreter/src/eval/error.rs"]}
{"id": "C83", "title": "A script sees exactly its transaction", "statement": "HEIGHT, SELF, INPUTS, OUTPUTS, data inputs, headers, the pre-header, the miner's key and the self index, the parts of boxes (value, id, bytes, bytes without reference, script, creation info, tokens, all ten registers) and the fields of headers, when read by a script, are those of the context and of the boxes and headers in it, as signed numbers of the declared width and in the same order; the self index is the position of the first input equal to the spent box, and the position being spent for contexts built from a transaction with distinct inputs. Reads that do not exist fail. (Refuted parts: the declared type of a register is not checked, a header's state root is not a tree, five context properties cannot be evaluated.)", "quantifier": "every context, environment, box, header and expression that evaluates to one of them; every register number", "why_tests_cant": "Contracts depend on reading the transaction faithfully for all transactions; tests look at a handful of boxes with small numbers.", "anchors": ["ergotree-interpreter/src/eval/global_vars.rs", "ergotree-interpreter/src/eval/scontext.rs", "ergotree-interpreter/src/eval/sbox.rs", "ergotree-interpreter/src/eval/sheader.rs", "ergotree-interpreter/src/eval/spreheader.rs", "ergotree-interpreter/src/eval/extract_*.rs", "ergotree-ir/src/chain/ergo_box.rs (get_register, creation_info, script_bytes)"]}
{"id": "C84", "title": "Connectives have their logical meaning", "statement": "allOf, anyOf, xorOf, !, &&, || and ^ compute conjunction, disjunction, parity, negation and their binary forms; sigma conjunction, disjunction, sigmaProp(boolean) and atLeast return a proposition that a set of secrets can prove exactly when it can prove all, one, or at least k of the given propositions, whatever simplification was applied. (atLeast fails instead for a single proposition, a negative bound or a bound above their number.)", "quantifier": "every list of booleans or of at most 255 sigma propositions, every bound, every set of known secrets", "why_tests_cant": "The meaning of the simplified proposition must agree with the script for every combination of nested propositions and secrets.", "anchors": ["ergotree-interpreter/src/eval/and.rs, or.rs, xor_of.rs, logical_not.rs, bin_op.rs", "ergotree-interpreter/src/eval/sigma_and.rs, sigma_or.rs, atleast.rs, bool_to_sigma.rs", "ergotree-ir/src/sigma_protocol/sigma_boolean/cand.rs, cor.rs, cthreshold.rs"]}
{"id": "C85", "title": "Options and tuples", "statement": "get, isDefined, getOrElse, map and filter on options and construction and selection on tuples obey the laws of options and tuples; get on an empty option and selection beyond the size fail; map and filter apply the function to the held value and leave every variable as it was.", "quantifier": "every option, tuple, function body, environment and selector", "why_tests_cant": "Laws over all values and function bodies.", "anchors": ["ergotree-interpreter/src/eval/option_get.rs, option_get_or_else.rs, option_is_defined.rs, soption.rs", "ergotree-interpreter/src/eval/tuple.rs, select_field.rs"]}
{"id": "C86", "title": "Group, hash and byte operations of scripts", "statement": "exp, multiply, negate, the generator, getEncoded followed by decodePoint, blake2b256, sha256, proveDlog, proveDHTuple and xor compute the power (for exponents between zero and the order; all others are refused), product, inverse, generator, the same point, the digests of the bytes, the proposition whose witnesses are exactly the discrete logarithm (the common exponent), and the bytewise exclusive or. (xor keeps the rest of its first operand only, and Global.xor swaps its operands; decodePoint ignores trailing bytes.)", "quantifier": "every group element, every exponent, every byte collection", "why_tests_cant": "Algebraic statements over all points and exponents.", "anchors": ["ergotree-interpreter/src/eval/exponentiate.rs, multiply_group.rs, group_generator.rs, sgroup_elem.rs, decode_point.rs", "ergotree-interpreter/src/eval/calc_blake2b256.rs, calc_sha256.rs, create_provedlog.rs, create_prove_dh_tuple.rs, xor.rs, sglobal.rs"]}
{"id": "C87", "title": "Variables, blocks and function application", "statement": "A variable has the value of its latest definition and an undefined one fails; a block evaluates its definitions in order, each seeing the earlier ones, and then its result; applying a function evaluates the arguments in order, binds each parameter to its argument for the body, and afterwards the parameters have the values they had before. (The number of arguments is not checked.)", "quantifier": "every block, function, argument list and environment", "why_tests_cant": "A statement about all nested programs.", "anchors": ["ergotree-interpreter/src/eval/val_use.rs, block.rs, apply.rs, func_value.rs", "ergotree-interpreter/src/eval/env.rs"]}
{"id": "C88", "title": "substConstants changes exactly the chosen constants", "statement": "When a script substitutes constants of another script given as bytes, the result is the encoding of the script with the same header, root and constant types, where every position not named keeps its constant and every named position holds the (last) given value; numbers of positions and values that differ, positions outside the script and values of another type are refused. (Byte values cannot be given.)", "quantifier": "every script with segregated constants, every list of positions (also repeated or negative) and of values", "why_tests_cant": "Contracts use it to check the script of an output; a substitution that touched anything else would let funds go elsewhere, for some positions and values.", "anchors": ["ergotree-interpreter/src/eval/subst_const.rs", "ergotree-ir/src/ergo_tree.rs (with_constant)"]}
{"id": "C89", "title": "Context variables and executed scripts", "statement": "getVar gives the variable with that number if its type is the requested one, nothing if there is none, and fails for another type; executeFromVar and executeFromSelfReg run exactly the expression whose encoding is stored there, and fail when the bytes are no expression or its type is not the declared one; the default is used exactly when the register is absent.", "quantifier": "every context extension, register, stored byte string, declared type and environment", "why_tests_cant": "The stored bytes are arbitrary and chosen by the spender.", "anchors": ["ergotree-interpreter/src/eval/get_var.rs, deserialize_context.rs, deserialize_register.rs", "ergotree-interpreter/src/sigma_protocol/prover/context_extension.rs"]}
{"id": "C90", "title": "JSON of boxes and transactions is lossless", "statement": "Writing a token, candidate box, box, input, unsigned transaction or transaction as JSON and reading it back yields the same value, in whatever order the registers are written; the order of the members of a document and members nobody knows do not change what a document is read as. Scripts, registers and variables that were read from bytes are in this class.", "quantifier": "every value whose fields are in range and whose scripts, registers and variables are read back from their own bytes; every order of map entries and members", "why_tests_cant": "Wallets, nodes and explorers exchange every box and transaction as JSON; a test covers a few documents.", "anchors": ["ergotree-ir/src/chain/json/ergo_box.rs", "ergo-lib/src/chain/json/transaction.rs", "ergo-lib/src/chain/transaction/input.rs", "ergo-lib/src/chain/json/context_extension.rs"]}
{"id": "C91", "title": "What is accepted from JSON is consistent", "statement": "Every box accepted from a JSON document carries the hash of its own content as identifier, also when the document names one; every transaction accepted carries the hash of what its inputs sign, equal to the one the document gives, and its outputs carry this identifier and their positions; everything accepted can be written again and is then read as the same value. (The transaction identifier and index the outputs of a transaction document claim for themselves are not compared with the transaction.)", "quantifier": "every JSON document with texts shorter than four gigabytes", "why_tests_cant": "Documents come from explorers and other wallets; an accepted document whose identifier does not belong to its content makes a wallet sign for other boxes.", "anchors": ["ergotree-ir/src/chain/json/ergo_box.rs (TryFrom<ErgoBoxJson>)", "ergo-lib/src/chain/json/transaction.rs (TryFrom<TransactionJson>)"]}
{"id": "C92", "title": "JSON of propositions, secrets, hints, headers and Merkle proofs", "statement": "Propositions, secrets, hint bags, Merkle proofs and batch proofs survive JSON (hints without the commitments inside proofs), and whatever is accepted is written to a document read as the same value. Headers survive when they carry a distance. (A header of version 2 read from bytes is written to a document that is refused; the identifier of a header and the operation of a constant proposition are not checked.)", "quantifier": "every well-formed proposition, secret, hint, header and Merkle proof; every document", "why_tests_cant": "Hints are exchanged between cosigners as JSON for arbitrary nested propositions; a lost or altered one makes signing fail.", "anchors": ["ergotree-ir/src/chain/json/sigma_protocol.rs", "ergotree-interpreter/src/json/hint.rs", "ergo-lib/src/chain/json/hint.rs", "ergo-chain-types/src/json/autolykos_solution.rs", "ergo-chain-types/src/header.rs", "ergo-merkle-tree/src/json.rs", "ergo-lib/src/wallet/secret_key.rs"]}
{"id": "C93", "title": "JSON reading is exact and does not panic", "statement": "An amount is the number written, or the number whose canonical decimal digits are given as text, below 2^64; integers outside their type are refused; hexadecimal is read exactly. No document makes reading a box, transaction, input, proposition, secret or Merkle proof panic, provided no object has a two-byte member name that is a single character. (Such a register name panics; so do a vote that is no natural number and a hint for a threshold above its propositions; a vote above 255 is truncated; box values outside their bounds are accepted.)", "quantifier": "every JSON document", "why_tests_cant": "Documents come from the network; any one of them that panics takes the wallet or node down.", "anchors": ["ergotree-ir/src/chain/json/box_value.rs, token.rs", "ergotree-ir/src/chain/ergo_box/register/id.rs", "ergo-chain-types/src/json/votes.rs", "ergotree-interpreter/src/json/hint.rs"]}
{"id": "C94", "title": "A box is spent exactly on its script's terms", "statement": "If verifying an input returns true, then its box is among those given, the script of that box, evaluated in the context of that input and of that height, returned a boolean or a proposition, and the proposition is true or its signature on the bytes to sign checks. A script that returns false or anything else, fails or panics lets nobody spend and nobody sign, whatever the proof and the number of steps. A box locked for a key until a height is spent exactly above that height (read as a signed number, so never from 2^31 on) with the key's signature, and its owner can sign for it; a box locked by a hash is spent exactly by showing bytes with that hash in the named variable.", "quantifier": "every script, state of the chain, transaction, set of boxes, input and proof; for the two contracts every height, key, variable and hash", "why_tests_cant": "It composes evaluation, reduction and proof checking for all scripts and all attackers; a test shows that particular spends are accepted or refused.", "anchors": ["ergotree-interpreter/src/eval.rs: reduce_to_crypto", "ergotree-interpreter/src/sigma_protocol/verifier.rs: Verifier::verify", "ergo-lib/src/chain/transaction.rs: verify_tx_input_proof", "ergo-lib/src/wallet/signing.rs: sign_transaction, make_context"]}
{"id": "C95", "title": "Checking a transaction received from somebody else never panics", "statement": "For every transaction read from bytes and every set of boxes read from bytes, checking the proof of any input in any state of the chain returns true, false or an error and never panics. Exceptions: scripts that use substConstants, scripts whose diagnostics cannot be printed, scripts whose result is not a proposition, and propositions with a threshold above the number of their children; the last is enough to stop every verifier with one box.", "quantifier": "every byte string accepted as a transaction, all boxes read from bytes, every chain state with at least one header, every input and recursion allowance, every 32-byte hash function", "why_tests_cant": "All inputs are chosen by an attacker, and the claim composes parsing, context building, script substitution, evaluation and signature checking.", "anchors": ["ergo-lib/src/chain/transaction.rs: verify_tx_input_proof, Transaction::sigma_parse", "ergo-lib/src/wallet/signing.rs: make_context", "ergotree-interpreter/src/sigma_protocol/verifier.rs: Verifier::verify", "ergotree-ir/src/ergo_tree.rs: ErgoTree::proposition", "ergotree-interpreter/src/eval.rs: reduce_to_crypto"]}
{"id": "C96", "title": "Box selection succeeds when the funds suffice", "statement": "When the offered boxes hold the target value plus the smallest value of a box, at least the wanted amount of every token and not more kinds of tokens than fit one box, the simple selector returns a selection, in whatever order the boxes are offered. With more kinds of tokens it may fail with any multiple of the target on offer, depending on that order.", "quantifier": "every list of up to 65535 boxes, every target, every list of wanted tokens, every iteration order of the token map; total value and token amounts within the types' ranges", "why_tests_cant": "The selector's greedy loop decides box by box; success must hold for every list, order and distribution of value and tokens.", "anchors": ["ergo-lib/src/wallet/box_selector/simple.rs: SimpleBoxSelector::select, make_change_boxes, check_input_preservation", "ergo-lib/src/wallet/box_selector.rs: sum_tokens, sum_tokens_from_boxes"]}
{"id": "C97", "title": "The compiler never panics", "statement": "Compiling any source text, with the environment a program can construct (an empty one), returns an expression or an error; it does not abort the process. The error can be described to the user without aborting either.", "quantifier": "every source text, well formed or not; every error it gives", "why_tests_cant": "The parser, the lowering passes and the error description must be total over all texts, of every length and nesting; tests try a few dozen.", "anchors": ["ergoscript-compiler/src/compiler.rs: compile_expr, compile, CompileError::pretty_desc", "ergoscript-compiler/src/type_infer.rs: assign_type", "ergoscript-compiler/src/parser/grammar/expr.rs: expr_binding_power", "ergoscript-compiler/src/error.rs: pretty_error_desc"]}
{"id": "C98", "title": "Compiled scripts mean what the source says", "statement": "When a source compiles, the expression is the sum, from left to right, of terms written in the source, and evaluates at every height to their exact sum in the type of the first term, or fails when the terms differ in type or a partial sum leaves the range. A source that is nothing but a sum of HEIGHT and numbers, in any layout and with comments anywhere, compiles exactly when it is well typed; in one with + - * / the operators are grouped with * and / first and from the left; the script made of it holds that expression and its constants in order. Nothing in the source is ignored.", "quantifier": "every source text, every number of terms and layout, every height, every evaluation context", "why_tests_cant": "It relates an unbounded language to an unbounded set of programs and their values; tests compare a few snapshots.", "anchors": ["ergoscript-compiler/src/compiler.rs: compile_expr, compile", "ergoscript-compiler/src/hir.rs: lower, Binary::lower", "ergoscript-compiler/src/hir/rewrite.rs: rewrite", "ergoscript-compiler/src/binder.rs: Binder::bind", "ergoscript-compiler/src/mir/lower.rs: lower", "ergotree-ir/src/type_check.rs: type_check"]}
{"id": "C99", "title": "The parser loses nothing, points into the source, and compilation is feasible", "statement": "The syntax tree of every source, well formed or not, holds exactly the bytes of the source in order, with every token at its offset; the positions of all errors lie in the source. The work of compiling is bounded by a polynomial in the length of the source.", "quantifier": "every source text", "why_tests_cant": "Losslessness, error positions and running time must hold for every text of every length, including every way of being malformed.", "anchors": ["ergoscript-compiler/src/parser/parse.rs: parse", "ergoscript-compiler/src/parser/sink.rs: Sink", "ergoscript-compiler/src/lexer.rs: Lexer", "ergoscript-compiler/src/type_infer.rs: assign_type", "ergoscript-compiler/src/hir/rewrite.rs: rewrite"]}
{"id": "C100", "title": "Reading reserves no more memory than the bytes warrant", "statement": "Reading an expression or a script sets aside room for no more elements than the input has bytes, whether the input is well formed or not; where there is room for that many elements, reading never fails for want of memory.", "quantifier": "every byte sequence offered as an expression or a script, every amount of available room", "why_tests_cant": "The announced number of elements comes from the bytes and can take any value up to 2^32 - 1 at any depth of nesting; a test reads a few encodings.", "anchors": ["ergotree-ir/src/serialization/serializable.rs: Vec::sigma_parse", "ergotree-ir/src/ergo_tree.rs: ErgoTree::sigma_parse", "ergotree-ir/src/mir/block.rs: BlockValue", "ergotree-ir/src/mir/func_value.rs: FuncValue", "ergotree-ir/src/serialization/expr.rs: Expr::sigma_parse"]}
{"id": "C102", "title": "Peer discovery finds exactly the nodes that can be reached", "statement": "Every node returned by peer_discovery can be reached from the seeds by asking nodes for their peers, answered its requests, is not a seed and is returned once. If the timeout does not strike and the nodes behave the same each time, every such node is returned.", "quantifier": "every set of seeds, every behaviour of the network, every size of the channels, every interleaving of the tasks, every moment of the timeout", "why_tests_cant": "The result depends on the interleaving of the main task, the request tasks and the timer and on the answers of the network; a test sees one schedule of one network.", "anchors": ["ergo-rest/src/api/node.rs: peer_discovery", "ergo-rest/src/api/peer_discovery_internals/non_chrome.rs: peer_discovery_impl", "ergo-rest/src/api/peer_discovery_internals/non_chrome.rs: spawn_http_request_task"]}
{"id": "C103", "title": "Peer discovery returns", "statement": "Peer discovery neither panics nor deadlocks: it returns after finitely many steps when finitely many nodes can be reached, and after the timeout within a bound fixed by what is under way, for all seeds.", "quantifier": "every set of seeds, every behaviour of the network, every size of the channels, every interleaving of the tasks, every moment of the timeout", "why_tests_cant": "Deadlock freedom and termination quantify over all schedules and all networks.", "anchors": ["ergo-rest/src/api/node.rs: peer_discovery", "ergo-rest/src/api/peer_discovery_internals/non_chrome.rs: peer_discovery_impl", "ergo-rest/src/api/peer_discovery_internals/non_chrome.rs: spawn_http_request_task"]}
{"id": "C104", "title": "Peer discovery asks each node once and limits its tasks", "statement": "Only nodes that were given or listed by a node that answered are asked; each of them is asked exactly once; no more request tasks than max_parallel_tasks are at work at the same time.", "quantifier": "every set of seeds, every behaviour of the network, every size of the channels, every interleaving of the tasks", "why_tests_cant": "How often a node is asked depends on the order in which answers arrive.", "anchors": ["ergo-rest/src/api/node.rs: peer_discovery", "ergo-rest/src/api/peer_discovery_internals/non_chrome.rs: peer_discovery_impl"]}
{"id": "C105", "title": "The version check of nodes compares versions", "statement": "NodeInfo::is_at_least_version_4_0_100 holds exactly for the versions that are at least 4.0.100.", "quantifier": "every version number", "why_tests_cant": "There are infinitely many version numbers; a comparison of texts agrees with the comparison of numbers on those a test is likely to pick.", "anchors": ["ergo-rest/src/node_info.rs: NodeInfo::is_at_least_version_4_0_100"]}
{"id": "C101", "title": "Nesting is limited when reading and evaluating", "statement": "Reading an expression, a type or a script from bytes, and evaluating it, uses an amount of call stack that is limited by the library: input nested deeper than a fixed limit is refused with an error instead of exhausting the stack, which aborts the process.", "quantifier": "every byte string, every nesting depth, every expression read from bytes", "why_tests_cant": "The depth of recursion is chosen by whoever made the bytes; tests use small expressions and cannot show that no input recurses deeper than the stack allows.", "anchors": ["ergotree-ir/src/serialization/expr.rs: Expr::sigma_parse, Expr::parse_with_tag", "ergotree-ir/src/serialization/types.rs: SType::sigma_parse", "ergotree-ir/src/ergo_tree.rs: ErgoTree::sigma_parse_bytes", "ergotree-interpreter/src/eval/expr.rs: Expr::eval"]}
{"id": "C79", "title": "A script of type T evaluates to a value of type T", "statement": "If evaluating a script succeeds, the value it returns has the type that the library computes for the script: a script of type Int gives an Int, a collection holds items of its element type, a script whose type is a proposition gives a proposition. This holds for every script whose conditionals have branches of one type, whose folds take a function from the accumulator and an item to the accumulator, whose collection items have the element type, whose defaults are not functions, whose identifiers keep one type, whose registers are read at the type they hold, and which does not call flatMap, getReg or header.stateRoot; the reader guarantees everything else that is needed. Each of these exceptions is real: the reader accepts such a script and it evaluates to a value of another type.", "quantifier": "all scripts read from bytes, all contexts, registers and context variables, all evaluation depths", "why_tests_cant": "There are infinitely many scripts; the type of an expression depends on checks spread over some eighty constructors and the value on as many evaluators, and a single disagreement anywhere breaks the claim.", "anchors": ["ergotree-ir/src/mir/expr.rs Expr::tpe", "ergotree-ir/src/mir/if_op.rs", "ergotree-ir/src/mir/coll_fold.rs", "ergotree-ir/src/types/smethod.rs SMethod::specialize_for", "ergotree-ir/src/serialization/val_use.rs", "ergotree-interpreter/src/eval.rs", "ergotree-interpreter/src/eval/*.rs"]}
{"id": "C106", "title": "Chrome peer discovery finds exactly the live peers, over any number of calls", "statement": "Whatever the interleaving of requests, replies, timers and the scan loop, every peer that a scan reports was a seed's peer (or peer of a peer) that answered both /info and /peers/all and is not a seed; peers found by an earlier call are still reported by a later one; no call panics; and in a network that does not change, when a scan has no request left over it reports every such peer.", "quantifier": "all networks, seeds, limits, interleavings of the tasks, moments of the timeout and sequences of calls on the scan", "why_tests_cant": "The result depends on the interleaving of an unbounded number of requests, timers and calls.", "anchors": ["ergo-rest/src/api/peer_discovery_internals/chrome.rs:peer_discovery_impl_chrome", "ergo-rest/src/api/peer_discovery_internals/chrome.rs:ChromePeerDiscoveryScan"]}
{"id": "C107", "title": "Chrome peer discovery returns", "statement": "A call of peer discovery for Chrome returns its scan once its requests are answered or its timeout has passed, for every network, set of seeds and limit on parallel requests.", "quantifier": "all networks, seeds, limits, interleavings and moments of the timeout", "why_tests_cant": "Termination is about all interleavings and all networks; a test sees one run.", "anchors": ["ergo-rest/src/api/peer_discovery_internals/chrome.rs:peer_discovery_impl_chrome", "ergo-rest/src/api/peer_discovery_internals/chrome.rs:spawn_http_request_task_chrome"]}
{"id": "C108", "title": "Chrome peer discovery keeps to its limit and asks each node once", "statement": "At no moment are more requests under way, counting each twice for its preflight request, than the limit asked for allows (one is always allowed); and over the calls on a scan no node is asked for its information or its peers more than once.", "quantifier": "all networks, seeds, limits, interleavings and moments of the timeout", "why_tests_cant": "The number of requests under way depends on the interleaving; a test sees one.", "anchors": ["ergo-rest/src/api/peer_discovery_internals/chrome.rs:peer_discovery_impl_chrome"]}
{"id": "C109", "title": "The heap of timers is a priority queue with removal", "statement": "Whatever sequence of push, peek, pop and remove is applied to an empty timer heap, every answer is one a bag of items with distinct slots allows: push hands out a slot no live item has, peek and pop give an item no other comes before (or none exactly when empty), remove gives back the very item pushed under that slot and leaves all others; it fails only when a slot is used after its item has left; slot numbers stay below the largest number of items ever held; items pushed and popped come out sorted, all of them.", "quantifier": "all item types and keys, all finite sequences of operations, all orders of equal keys", "why_tests_cant": "the tests run a fixed script and one random session of bounded length; the index table and free list must stay consistent over every history", "anchors": ["ergo-rest/src/wasm_timer/timer/heap.rs: Heap::push, peek, pop, remove, percolate_up, percolate_down, set_index"]}
{"id": "C110", "title": "A delay fires at its time and not before", "statement": "Whatever calls are made on a timer and its delays, and in whatever order: polling a live delay answers done exactly when, since it was last made or reset, the timer was polled and then advanced to its instant or later, and pending otherwise; so it never fires before its instant nor for an instant it was reset away from; a poll of the timer followed by an advance to that instant makes it fire; a task told to wait is woken before the delay stops being pending; the timer's next event is the earliest instant of the live delays that have not fired; after the timer is dropped no delay stays pending; no call panics. A delay reset to an instant in the past is done at the next poll.", "quantifier": "all finite histories of creating, resetting, dropping and polling delays and of polling, advancing and dropping the timer, all instants", "why_tests_cant": "the state is shared between heap slots, an intrusive list and a generation counter; stale entries arise only from particular interleavings of resets, drops and advances", "anchors": ["ergo-rest/src/wasm_timer/timer.rs: Timer, advance_to, next_event, update_or_add, remove, Drop", "ergo-rest/src/wasm_timer/timer/delay.rs: Delay::new_handle, reset_at, poll, Drop", "ergo-rest/src/wasm_timer/timer/arc_list.rs: ArcList::push, take, pop"]}
{"id": "C111", "title": "In a browser delays fire on time", "statement": "With the timer driven by callbacks of the browser, a delay is never done before its time has come; there is always a callback to come and never more than twenty; and if every callback is run when it is due, every live delay is done as soon as its time has come and the callbacks due have run. Between events the timer sleeps.", "quantifier": "all sequences of calls on delays, of callbacks being run and of time passing, any number of delays, all durations", "why_tests_cant": "the number of pending callbacks depends on the whole history of calls, and lateness appears only once a threshold on it is crossed", "anchors": ["ergo-rest/src/wasm_timer/timer/global/wasm.rs: run, schedule_callback, Waker", "ergo-rest/src/wasm_timer/timer/delay.rs: Delay::new, reset"]}
{"id": "C112", "title": "An interval gives one item per period", "statement": "Polled at any instant, the interval stream is ready only if the time of its delay has come, and it then waits for the first of the instants start + n*period after now: no instant is given twice, missed ones are skipped, and the grid does not drift. The next instant is always in the future, for every positive period; and when the timer is gone the stream does not produce items without waiting.", "quantifier": "all starts, instants and periods, all histories of the timer", "why_tests_cant": "the arithmetic must hold for every start, delay and period; the tests try a handful of values, on native instants only", "anchors": ["ergo-rest/src/wasm_timer/timer/interval.rs: Interval, poll_next, next_interval, duration_to_nanos", "ergo-rest/src/wasm_timer/wasm.rs: Instant"]}
{"id": "C113", "title": "Scripts that are accepted follow the typing rules", "statement": "Every operation inside a script that the reader accepts has operands of the types the language gives for that operation, and the node has the type that the rule gives; calls have arguments of the types of the parameters; what follows the rules is accepted.", "quantifier": "all byte strings, all scripts read from them, all nodes in them, all operations", "why_tests_cant": "The rule must hold at every node of every script; tests build a few nodes of a few operations.", "anchors": ["ergotree-ir/src/mir/expr.rs: Expr::tpe, post_eval_tpe, check_post_eval_tpe", "ergotree-ir/src/mir/*.rs: try_build, new, sigma_parse", "ergotree-ir/src/types/scontext.rs", "ergotree-ir/src/serialization/expr.rs"]}
{"id": "C114", "title": "A mnemonic phrase encodes its entropy", "statement": "For every language and every entropy of 16, 20, 24, 28 or 32 bytes the phrase is made of the words of that language whose numbers are the groups of eleven bits of the entropy followed by its checksum, and the entropy can be read off the phrase; other lengths are refused; the words of a list are 2048 different ones made of letters, without the delimiter or invisible characters; names of languages are read back; each language has its own list and delimiter, and the seed of a phrase and a password is that of BIP-39, whichever of several equivalent spellings is typed.", "quantifier": "all languages, all byte strings as entropy, all hash functions, all strengths", "why_tests_cant": "There are 2^128 and more entropies; tests compare a few vectors, mostly in English, and do not see an invisible character in one word of one list.", "anchors": ["ergo-lib/src/wallet/mnemonic_generator.rs: MnemonicGenerator::from_entrophy, generate, WordList, Language", "ergo-lib/src/wallet/wordlist/*.txt", "ergo-lib/src/wallet/mnemonic.rs: Mnemonic::to_seed"]}
{"id": "C115", "title": "EIP-12 documents survive a JavaScript wallet", "statement": "Every box, candidate, token, unsigned and signed transaction written as an EIP-12 document (to_js_eip12 / to_json_eip12, amounts as strings) is read back by from_json as the same value. When JavaScript parses the document and writes it again (JSON.parse, JSON.stringify) a box comes back unchanged whatever its amounts, and a transaction comes back as the same transaction.", "quantifier": "all candidates, boxes and transactions that can be written as JSON, all orders of hash maps, all hash functions, all ways in which JavaScript rounds numbers beyond 2^54", "why_tests_cant": "Amounts range over 64 bits, extensions over all orders of 256 variables, and tests never pass a document through a JavaScript engine; a single reordered variable changes the message to sign.", "anchors": ["bindings/ergo-lib-wasm/src/json.rs: TransactionJsonEip12, UnsignedTransactionJsonEip12, ErgoBoxJsonEip12, ErgoBoxCandidateJsonEip12", "bindings/ergo-lib-c-core/src/json.rs", "bindings/ergo-lib-wasm/src/transaction.rs: to_js_eip12, from_json", "ergo-lib/src/chain/json/transaction.rs"]}
{"id": "C116", "title": "Constants from JavaScript values mean what the caller wrote", "statement": "Constant.from_js turns a whole number into an Int, a decimal text into a Long, a BigInt into a BigInt, a Uint8Array into a collection of bytes, an array of values of one type into a collection and array_as_tuple into a tuple, with the same numbers; anything it cannot represent is an error, never another constant and never a panic; and what Constant.to_js gives for a constant is turned back into that constant.", "quantifier": "all values of JavaScript of any depth, all constants", "why_tests_cant": "Values nest without bound and numbers range over all doubles, texts and big integers; the tests try a handful of round trips for each type.", "anchors": ["bindings/ergo-lib-wasm/src/ast/js_conv.rs: constant_from_js, constant_to_js, array_as_tuple, tuple_from_js, coll_long_from_js", "bindings/ergo-lib-wasm/src/ast.rs: Constant::from_js, to_js"]}
{"id": "C117", "title": "Extracting a Rust value from a constant checks its type", "statement": "try_extract_into gives the value out when the constant has the type the Rust type stands for, unchanged, and is an error for a constant of every other type.", "quantifier": "all Rust types built of the basic ones, vectors, options and tuples; all well-typed constants", "why_tests_cant": "There are infinitely many pairs of nested types; tests extract each constant at its own type only.", "anchors": ["ergotree-ir/src/mir/constant.rs: TryExtractInto, TryExtractFrom<Literal>, TryExtractFrom<Constant>"]}
{"id": "C118", "title": "Simulated block streams are valid, mined chains", "statement": "Whatever random values are drawn, every prefix of a block stream is a chain: heights 1, 2, 3, ...; each block names its predecessor; every identifier is the hash of the block's bytes, which read back as the same header; the roots commit to the transactions and to the extension; every header solves the Autolykos version 1 puzzle (w^f = g^d * pk, with d within the target); the interlinks are those of the chain. Every block converts to a superblock header with a valid interlinks proof, the NIPoPoW prover makes a valid proof of any long enough prefix, a stream resumed from a block continues it, and the stream does not end or fail.", "quantifier": "all random draws, miner secrets, hash functions with 32-byte values, transactions, and lengths of the stream; all prover parameters k >= 1 and m >= 2", "why_tests_cant": "The existing tests look at a few random streams of fixed lengths; the claim is about every draw and every length, and a wrong interlink or root only matters for particular level patterns.", "anchors": ["ergo-chain-generation/src/chain_generation.rs: block_stream, next_block, prove_block, generate_element, numeric_hash, transactions_root", "ergo-chain-generation/src/lib.rs: ErgoFullBlock, TryInto<PoPowHeader>", "ergo-nipopow/src/nipopow_algos.rs: update_interlinks, pack_interlinks, prove"]}
{"id": "C119", "title": "Printed scripts carry positions that name their nodes", "statement": "Pretty printing a script returns its text and the script with source positions. Every position lies inside the text; the text at the position of a node is what that node prints on its own; the positions of the operands of a node follow each other and lie inside the node; and different scripts have different texts.", "quantifier": "every script expression, every text of constants and method names, every node in it", "why_tests_cant": "The tests print a handful of scripts and compare the text. That offsets stay right depends on every nesting of sixty kinds of node and on the indentation that all earlier nodes have left behind.", "anchors": ["ergotree-ir/src/pretty_printer.rs: PosTrackingWriter", "ergotree-ir/src/pretty_printer/print.rs: Print, Expr::pretty_print", "ergotree-ir/src/source_span.rs: Expr::span", "ergotree-ir/src/ergo_tree.rs: ErgoTree::pretty_print"]}
{"id": "C120", "title": "An evaluation error points at the expression that failed and can be shown", "statement": "When the evaluation of a script fails, the error that is returned carries the original message, the text of the script and the position of the innermost expression that was being evaluated; the position lies inside the text; and errors can be shown, any number of them in one process.", "quantifier": "every script, every chain of nested evaluations in which the error arises, every sequence of errors that are shown", "why_tests_cant": "The tests look at three positions; the tests of the shown text are commented out. Whether showing an error works depends on everything that was shown before in the same process.", "anchors": ["ergotree-interpreter/src/eval/error.rs: enrich_err, wrap_spanned_with_src, Display for SpannedWithSourceEvalError, Debug for SpannedWithSourceEvalError", "ergotree-interpreter/src/eval.rs: reduce_to_crypto", "ergotree-interpreter/src/eval/expr.rs: Expr::eval"]}
{"id": "C121", "title": "A wallet signs exactly for the keys it holds, and a message signature is about its message", "statement": "A wallet that holds the key of a public-key address signs every message for that address, and verifying that signature for that address and message succeeds; a wallet without the key, and any wallet for another kind of address, returns an error. A signature that is accepted for two different messages is a collision of the hash. Adding a secret never takes away the ability to sign. A wallet made from a mnemonic holds the master key and signs for its address. A signature over a message authorises nothing else, in particular no transaction.", "quantifier": "all wallets, messages, addresses, propositions, signatures, mnemonics, passwords, hash functions, random choices and transactions", "why_tests_cant": "Tests sign a few messages with one key; they do not range over all wallets and signatures, and no test tries to use a message signature as the proof of a transaction or adds a secret to a wallet that could already sign.", "anchors": ["ergo-lib/src/wallet.rs Wallet::from_mnemonic from_secrets add_secret sign_message", "ergo-lib/src/wallet/signing.rs sign_message", "bindings/ergo-lib-wasm/src/wallet.rs sign_message_using_p2pk", "bindings/ergo-lib-wasm/src/verifier.rs verify_signature", "bindings/ergo-lib-c-core/src/wallet.rs wallet_sign_message_using_p2pk verify_signature"]}
{"id": "C122", "title": "The hints a wallet makes are for its keys only and their public part is safe to share", "statement": "The commitments a wallet generates for a transaction are exactly one pair, a commitment for the others and one with its randomness for the wallet itself, for every leaf of every input's reduced proposition that is the public image of one of its secrets, at the position of the leaf; they are the same for a transaction and for its reduction. Hints extracted from a signed transaction are, per input, those of that input's proof. Signing one input alone gives the input of the signed transaction. The hints called public reveal no secret.", "quantifier": "all wallets, transactions, contexts, reductions, random choices and hint bags", "why_tests_cant": "Tests generate hints for one or two inputs with fixed keys; they cannot cover every nesting of propositions, and none looks at what the public hints reveal once the signature is published.", "anchors": ["ergo-lib/src/wallet.rs Wallet::generate_commitments generate_commitments_for_reduced_transaction sign_tx_input", "ergo-lib/src/wallet/multi_sig.rs generate_commitments extract_hints generate_commitments_for TransactionHintsBag::add_hints_for_input"]}
{"id": "C123", "title": "Objects behind C pointers behave as values", "statement": "A C program that does not use deleted objects never causes undefined behaviour through the collection, element and error functions. It sees exactly what it would see if its variables held values: a collection is the list of what was added to it, elements taken out of it are independent of it, deleting one object affects no other, and a program that deletes everything it was given leaves nothing in memory. Null arguments are reported as errors. A collection passed where a bounded list is expected arrives unchanged or is refused.", "quantifier": "all sequences of calls, all element types and values, all behaviours of the memory allocator including reuse of freed addresses", "why_tests_cant": "Tests make a few calls in one order with one allocator; freedom from use after free, double free and leaks is a statement about every sequence of calls and every choice of addresses.", "anchors": ["bindings/ergo-lib-c-core/src/collections.rs collection_new collection_delete collection_len collection_get collection_add", "bindings/ergo-lib-c-core/src/util.rs const_ptr_as_ref mut_ptr_as_mut deref_eq", "bindings/ergo-lib-c/src/macros.rs make_collection make_ffi_eq", "bindings/ergo-lib-c/src/lib.rs delete_ptr ergo_lib_delete_error ergo_lib_error_to_string", "bindings/ergo-lib-c-core/src/rest/c_string_collection.rs delete_c_string_collection"]}
{"id": "C124", "title": "Every asynchronous request makes exactly one callback", "statement": "For every request that was started, exactly one of the completion callback and the abort callback is called, once, so that the caller's data handed over with the request is released exactly once. The completion callback gets either a response or an error and gets a response exactly if the node gave one. After an abort there is no completion. A request that cannot be started returns an error and makes no callback.", "quantifier": "all interleavings of the worker thread, aborts, and deletions of the request handle and the runtime, and all answers of the node", "why_tests_cant": "Tests see one schedule; whether an abort can fall between the end of the request and its callback is a matter of all interleavings.", "anchors": ["bindings/ergo-lib-c-core/src/rest/api/callback.rs CompletionCallback AbortCallback", "bindings/ergo-lib-c-core/src/rest/api/request_handle.rs RequestHandle::abort", "bindings/ergo-lib-c-core/src/rest/api/node.rs rest_api_node_get_info rest_api_node_get_header rest_api_node_peer_discovery", "bindings/ergo-lib-c-core/src/rest/api/node/abortable.rs spawn_abortable"]}
{"id": "C125", "title": "The timer thread never sleeps through a delay, and there is only one", "statement": "Wherever the thread that drives the timer is, and however other threads interleave with it, a delay that was created or reset stays scheduled until it fires, never fires early, and once it is due a bounded number of the thread's own steps fires it, even if it was about to go to sleep when the delay arrived. Only the last time set for a delay is kept and nothing for a dropped one. The thread sleeps only when nothing is to be done before it wakes. Stopping it always ends. Threads that ask for the default timer at the same time all get the same one; helper threads that lost the race are stopped; once it is there a thread gets it without making another; asking ends, never panics and gives no timer only if a thread could not be created.", "quantifier": "all numbers of delays, times and threads, all interleavings of the timer's thread with creations, resets, drops, wake-ups, spurious wake-ups, clock ticks and stopping, and all schedules of threads that race for the default timer", "why_tests_cant": "A lost wake-up needs the delay to arrive between two instructions of the timer's thread; a test sees one schedule and would just hang.", "anchors": ["ergo-rest/src/wasm_timer/timer/global/desktop.rs: HelperThread::new, HelperThread::drop, run, CurrentThreadWaker", "ergo-rest/src/wasm_timer/timer.rs: Timer::poll, TimerHandle::default, set_as_global_fallback", "ergo-rest/src/wasm_timer/timer/delay.rs: Delay::new_at, reset, Drop"]}
{"id": "C126", "title": "Containers of the network format are lossless and safe to read", "statement": "Lists, bounded lists and optional values of anything that survives being written to the network format and read back survive it too, whatever bytes follow and however they are nested; what is read is within the bounds of its type and can be written and read again with the same result; a list that was accepted has fewer items than the message has bytes. Reading never panics and reserves no more memory than the message justifies, every value has exactly one encoding, and a list too long for the format is refused.", "quantifier": "all item types with their writers and readers, all values, all lists of any length, all byte sequences, all bounds and address sizes", "why_tests_cant": "The containers are generic: tests instantiate them with numbers and short lists, and none reaches the list lengths or the claimed counts that break them.", "anchors": ["sigma-ser/src/scorex_serialize.rs: ScorexSerializable, impl for Vec, BoundedVec, u32, Option<Box<T>>, scorex_serialize_roundtrip"]}
{"id": "C127", "title": "Time limits on futures and streams act exactly when the time has passed", "statement": "A future with a time limit gives what the future gives if that is there when it is polled, is pending before the limit and gives a time-out error once the timer has reached it, never earlier, and the task is woken for it. A stream with a limit per item passes on every item and its end, once and in order, and adds a time-out exactly when the limit has passed since the last answer, starting the time anew after each answer.", "quantifier": "all histories of calls to the timer and all delays, all futures and streams, represented by what they answer to each poll, all limits and times", "why_tests_cant": "Whether a limit acts early, late or without being woken depends on the order of polls, timer advances, resets and the end of the timer; tests check one order with real sleeping.", "anchors": ["ergo-rest/src/wasm_timer/timer/ext.rs: TryFutureExt::timeout, timeout_at, Timeout, TryStreamExt::timeout, TimeoutStream"]}
{"id": "C128", "title": "Browser requests are sent as they were built, with defaults only where nothing was set", "statement": "A request that was built by a series of calls has the given method and URL and, for its body, time limit, credentials and mode, what the last call for each set; its headers have the values the calls gave them, in order, where header maps replace the names they hold and leave others. The first failing call decides the outcome, whatever follows, and no call panics. A client's default header is sent exactly if the request has none of that name, every request has a time limit, thirty seconds unless told otherwise, and there is an outcome by exactly that time, body included. Responses show the status, URL and header values the browser gave, and receiving them never panics. Clones equal the request, and requests of the http crate survive conversion.", "quantifier": "all series of builder calls, all default header maps, all methods, texts, bodies and time limits, all parsers of header names, header values and URLs", "why_tests_cant": "The effect of a call depends on all calls before it and on the client's defaults; tests run a few fixed series in a browser and cannot cover all maps, orders and limits.", "anchors": ["ergo-rest/src/reqwest/wasm/request.rs: Request, RequestBuilder, TryFrom<HttpRequest>, TryFrom<Request>", "ergo-rest/src/reqwest/wasm/client.rs: Client, ClientBuilder, merge_headers, fetch", "ergo-rest/src/reqwest/wasm/body.rs: Body", "ergo-rest/src/reqwest/util.rs: replace_headers", "ergo-rest/src/reqwest/wasm/response.rs: Response, error_for_status"]}
