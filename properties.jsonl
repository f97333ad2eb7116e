{"id": "C01", "title": "CompactSize is a bijective, minimal code", "statement": "Decoding the CompactSize encoding of any 64-bit value followed by any bytes yields that value and leaves exactly the following bytes; conversely any byte string the decoder accepts starts with exactly the encoding of the returned value, so no value has two accepted encodings. The length-decoder additionally rejects exactly the values above its limit, and the advertised encoded size is the true size.", "quantifier": "every u64 value, every limit, every trailing byte string, every input byte string", "why_tests_cant": "2^64 values and infinitely many byte strings; canonicity is a statement about all inputs that are not encodings", "anchors": ["consensus_encoding/src/compact_size.rs: CompactSizeEncoder, CompactSizeDecoder, CompactSizeU64Decoder"]}
{"id": "C02", "title": "Push decoders do not depend on how input is split", "statement": "For every consensus decoder, feeding the input in any sequence of slices gives the same value or the same error and leaves the same unconsumed suffix as feeding it in one slice; a decoder that, given the rest of its input until it makes no progress, asks for more has consumed everything it was given; a decoder that is done never consumes a byte beyond its encoding, and answers every later slice that it is done, leaving it whole.", "quantifier": "every input byte string, every way of cutting it into slices, every decoder built from the provided primitives and combinators", "why_tests_cant": "exponentially many splittings of infinitely many inputs", "anchors": ["consensus_encoding/src/decode/decoders.rs: ArrayDecoder, ByteVecDecoder, VecDecoder, Decoder2, Decoder3, Decoder4, Decoder6", "consensus_encoding/src/decode/mod.rs: Decoder"]}
{"id": "C03", "title": "All decode drivers agree and never over-read", "statement": "decode_from_slice, decode_from_slice_unbounded, decode_from_read and decode_from_read_unbuffered give the same value for the same bytes; decode_from_slice errors iff bytes are left over; a reader is left positioned exactly after the encoding whatever its buffer sizes, and the advertised read limit never asks for bytes beyond the end of the encoding and is 0 once the decoder is done.", "quantifier": "every input, every buffer-fill schedule of the reader, every lawful decoder", "why_tests_cant": "quantifies over all reader schedules and inputs", "anchors": ["consensus_encoding/src/decode/mod.rs: decode_from_slice, decode_from_slice_unbounded, decode_from_read, decode_from_read_unbuffered_with"]}
{"id": "C04", "title": "All ways of draining an encoder give the same bytes", "statement": "Encoding to a vector, to a writer, or through the byte iterator yield the same byte string, which is the concatenation of the components' encodings; an advertised exact length equals the number of bytes produced.", "quantifier": "every encoder built from the provided primitives and combinators, including empty components", "why_tests_cant": "infinitely many nestings and component values; empty-chunk corner cases arise from combinations", "anchors": ["consensus_encoding/src/encode/encoders.rs: BytesEncoder, ArrayEncoder, SliceEncoder, Encoder2..6", "consensus_encoding/src/encode/iter.rs: EncoderByteIter", "consensus_encoding/src/encode/mod.rs: encode_to_vec, drain_to_vec"]}
{"id": "C05", "title": "Length-prefixed vectors: exact round trip and bounded allocation", "statement": "A length-prefixed byte vector or item vector decodes to exactly the items encoded; lengths above the limit are refused; and while decoding, the memory reserved never exceeds the data already received by more than one allocation batch, whatever length the prefix claims.", "quantifier": "every item list, every claimed length, every prefix of the stream", "why_tests_cant": "adversarial prefixes claim arbitrary lengths; the bound must hold at each intermediate point", "anchors": ["consensus_encoding/src/decode/decoders.rs: ByteVecDecoder, VecDecoder, MAX_VECTOR_ALLOCATE"]}
{"id": "C06", "title": "Transaction serialization round-trips and is canonical", "statement": "Every transaction within consensus shape limits decodes from its own encoding (with or without witness data, including zero-input transactions) to itself and consumes exactly its bytes; any byte string accepted by the decoder is exactly the encoding of the transaction returned.", "quantifier": "every transaction value, every input byte string", "why_tests_cant": "unbounded numbers of inputs, outputs, witness elements; segwit marker ambiguity is a global property of the format", "anchors": ["primitives/src/transaction.rs: Transaction Encode, TransactionDecoder, uses_segwit_serialization"]}
{"id": "C07", "title": "Transaction decoding enforces the structural rules", "statement": "A decoded transaction never has duplicate inputs, a null outpoint in a multi-input transaction, a coinbase script outside 2..=100 bytes, total outputs above the money supply, an empty output list, or a segwit serialization whose witnesses are all empty; and each such stream is rejected.", "quantifier": "every byte string presented to the decoder", "why_tests_cant": "must hold for all adversarial streams", "anchors": ["primitives/src/transaction.rs: TransactionDecoder::end, TransactionDecoderError"]}
{"id": "C08", "title": "txid ignores, wtxid commits to, witness data", "statement": "The txid and ntxid are unchanged by any change to witnesses (and ntxid by any change to scriptSigs); the wtxid is the double hash of the full encoding and the txid of the encoding without witnesses; hence equal wtxids of different transactions exhibit an explicit hash collision; for transactions without witnesses txid and wtxid coincide.", "quantifier": "every pair of transactions, every hash function", "why_tests_cant": "quantifies over all transactions and all witness mutations", "anchors": ["primitives/src/transaction.rs: compute_txid, compute_wtxid, compute_ntxid, hash_transaction"]}
{"id": "C09", "title": "Header, outpoint, input, output and block codecs round-trip and are canonical", "statement": "OutPoint, TxIn, TxOut, block header and block: decode of encode is the identity with exact consumption and every accepted byte string is the encoding of its result.", "quantifier": "every value and every byte string", "why_tests_cant": "infinite input spaces, nested variable-length structure", "anchors": ["primitives/src/transaction.rs", "primitives/src/block.rs: BlockDecoder, HeaderDecoder"]}
{"id": "C10", "title": "Merkle root computation matches the recursive definition", "statement": "The streaming stack algorithm and the batched algorithm return, for any list of leaves, the root of the Bitcoin Merkle tree (pairwise hashing, last duplicated) and refuse the lists whose tree has two equal adjacent sibling nodes at some level (the CVE-2012-2459 shape) or no leaves, and no others; the streaming one may accept such a list only if two different pairs of nodes of that very tree have the same hash.", "quantifier": "every list of leaves of any length, every hash function", "why_tests_cant": "list length unbounded; behaviour depends on binary structure of the length", "anchors": ["primitives/src/merkle_tree.rs: calculate_root, calculate_root_batched"]}
{"id": "C11", "title": "A Merkle root binds the leaf list", "statement": "If two accepted leaf lists have the same length and the same root then they are equal or the computation exhibits two different inputs with the same hash; if lengths differ an explicit collision or a leaf equal to an inner hash is exhibited.", "quantifier": "every pair of leaf lists", "why_tests_cant": "security property over all pairs of lists", "anchors": ["primitives/src/merkle_tree.rs: calculate_root"]}
{"id": "C12", "title": "Witness behaves like a list of byte strings", "statement": "After any sequence of push/clear/construct operations the witness's len, get, last, second-to-last, iteration, equality, size and encoding are those of the plain list of pushed byte strings; decoding its encoding gives back an equal witness, and every accepted byte string is the encoding of the decoded witness.", "quantifier": "every operation sequence, every element content, every byte string", "why_tests_cant": "the internal flat buffer with a trailing index is shared mutable state; must hold for all histories", "anchors": ["primitives/src/witness.rs: Witness, WitnessDecoder, Iter"]}
{"id": "C13", "title": "Script pushes are parsed back, minimal and unambiguous", "statement": "Pushing any data onto any well-formed script appends bytes that the instruction iterator reads back as exactly that push; the optimised push is minimal and accepted by the minimal iterator; appending does not change how the existing instructions are parsed. The instructions that the minimal iterator reads rebuild the script byte for byte; rebuilding any readable script with the optimised push yields the same pushed data in minimal form, never longer, and unchanged exactly if the script was minimal.", "quantifier": "every script, every pushed byte string up to 2^32-1 bytes, every sequence of builder operations", "why_tests_cant": "all lengths across the push-opcode boundaries and all histories of pushes", "anchors": ["primitives/src/script/owned.rs: push_slice, push_slice_no_opt", "bitcoin/src/blockdata/script/instruction.rs: Instructions", "bitcoin/src/blockdata/script/owned.rs: push_int, extend"]}
{"id": "C14", "title": "The instruction iterator is total and terminates", "statement": "Iterating any byte string as a script never panics, yields at most as many items as bytes, consumes the script from left to right without gaps, reports indices that match consumption, and after the first error yields nothing more.", "quantifier": "every byte string, both minimality modes", "why_tests_cant": "every byte string is a potential script", "anchors": ["bitcoin/src/blockdata/script/instruction.rs: Instructions::next, InstructionIndices"]}
{"id": "C15", "title": "Script integers round-trip and are minimal", "statement": "Writing any integer then reading it returns the same integer where the reader's size limit admits it; the minimal reader accepts a byte string iff it is the written form of its value; non-minimal reading agrees with the minimal one wherever both succeed; push_int of any permitted integer is read back as that integer.", "quantifier": "every i64 and every byte string", "why_tests_cant": "2^64 integers, all byte strings", "anchors": ["bitcoin/src/blockdata/script/mod.rs: write_scriptint, read_scriptint_non_minimal", "bitcoin/src/blockdata/script/push_bytes.rs: read_scriptint"]}
{"id": "C16", "title": "Witness programs and their output scripts correspond one to one", "statement": "A script is recognised as a witness program iff it is the output script of some (version, program) with length 2..40, and building the script of a witness program and recognising it return the same version and program; p2wpkh/p2wsh/p2tr/p2sh/p2pkh predicates are mutually exclusive and exact. Versions as numbers, opcodes, decimal texts and first instructions of the script convert into each other exactly.", "quantifier": "every script byte string, every version and program", "why_tests_cant": "all byte strings", "anchors": ["primitives/src/script/borrowed.rs: witness_version", "addresses/src/witness_program.rs: WitnessProgram::new"]}
{"id": "C17", "title": "Amounts stay within the money supply and arithmetic is exact", "statement": "Every operation on Amount and SignedAmount returns either the mathematically exact result within 0..=21e14 (or symmetric signed range) or an error; it errs only when the exact result is out of range or division is by zero; no intermediate wraps. Chains of operations with result types return a value iff every intermediate result is in range. Constructors from u32, i32, u16 and i16 keep every value of their type and never panic; the sign functions agree with the value.", "quantifier": "every pair of in-range amounts, every u64/i64 operand, every chain of operations", "why_tests_cant": "2^51 x 2^64 operand pairs; chains unbounded", "anchors": ["units/src/amount/unsigned.rs", "units/src/amount/signed.rs", "units/src/amount/result.rs", "units/src/result.rs"]}
{"id": "C18", "title": "Amount text format round-trips in every denomination", "statement": "Formatting any amount in any denomination and parsing it back gives the same amount; parsing never returns an amount different from the decimal value written times the denomination; too-precise, too-big or malformed text is an error, and the position in the error is the byte where the offending character begins. Printed with fewer decimals, an amount reads back as the nearest amount with that many decimals.", "quantifier": "every amount, every denomination, every text", "why_tests_cant": "all strings; decimal conversion by induction over digits", "anchors": ["units/src/amount/mod.rs: parse_signed_to_satoshi, fmt_satoshi_in"]}
{"id": "C19", "title": "Fee and fee-rate conversions round in the documented direction", "statement": "Fee from rate and weight is the least amount at least the exact product (or an error on overflow); rate from fee and weight by floor/ceil bracket the exact quotient; unit conversions of fee rates and weights are exact or rounded as named; adding never overflows silently.", "quantifier": "every fee rate, weight and amount", "why_tests_cant": "64-bit operand space; rounding composed through two scalings", "anchors": ["units/src/fee_rate/mod.rs", "units/src/fee.rs", "units/src/weight.rs", "units/src/amount/unsigned.rs: div_by_weight_floor, div_by_fee_rate_ceil"]}
{"id": "C20", "title": "Absolute lock times follow the consensus rule", "statement": "The u32 consensus encoding is a bijection with lock times (threshold 500,000,000); is_satisfied_by agrees with the consensus finality rule for the given next-block height/median time; is_implied_by(a,b) holds iff every chain state satisfying b satisfies a (same unit).", "quantifier": "every u32, every chain height and median time", "why_tests_cant": "2^32 x 2^32 states; implication is a universally quantified relation", "anchors": ["units/src/locktime/absolute/mod.rs: LockTime"]}
{"id": "C21", "title": "Relative lock times and sequences follow BIP68", "statement": "Decoding a sequence number as relative lock time agrees with BIP68 bit fields; the encodings round trip; satisfaction agrees with the BIP68 rule for given mined/tip heights or times; implication is sound and complete; conversions from seconds round as named and fail only out of range; errors carry the values they are about.", "quantifier": "every u32 sequence, every pair of heights/times", "why_tests_cant": "2^32 sequences times chain states", "anchors": ["units/src/sequence.rs: Sequence", "units/src/locktime/relative/mod.rs: LockTime"]}
{"id": "C22", "title": "256-bit integers implement exact modular arithmetic", "statement": "U256 addition, subtraction, multiplication, shifts, increment, division with remainder, comparison, bit length, byte conversions equal the corresponding operations on integers modulo 2^256 with correct overflow flags; decimal printing is the decimal expansion and parses back.", "quantifier": "every pair of 256-bit integers", "why_tests_cant": "2^512 pairs; carries between the two 128-bit limbs", "anchors": ["include/u256.rs: U256"]}
{"id": "C23", "title": "Compact target encoding follows the consensus rule", "statement": "from_compact equals the consensus decoding of nBits (mantissa times 256^(exponent-3), zero for negative mantissa); to_compact_lossy of any target decodes to the target truncated to its top 3 significant bytes, is canonical, and is the identity on canonical compact values.", "quantifier": "every u32 nBits, every 256-bit target", "why_tests_cant": "2^32 and 2^256 inputs", "anchors": ["units/src/pow.rs: Target::from_compact, to_compact_lossy"]}
{"id": "C24", "title": "Target and work are inverse and antitone", "statement": "Work of a target is floor(2^256/(target+1)); lower target means at least as much work; converting back loses only rounding; total work accumulates exactly.", "quantifier": "every 256-bit target", "why_tests_cant": "2^256 inputs", "anchors": ["units/src/pow.rs: Target::to_work, Work::to_target", "include/u256.rs: inverse"]}
{"id": "C25", "title": "Difficulty adjustment stays within the consensus bounds", "statement": "The next target computed from a timespan is old*clamped_timespan/target_timespan with the timespan clamped to a factor 4 and capped by the network maximum; min/max transition thresholds bound every possible retarget.", "quantifier": "every previous target, every pair of timestamps, every network", "why_tests_cant": "2^32 timespans x 2^32 targets", "anchors": ["bitcoin/src/pow.rs: CompactTarget::from_next_work_required, Target::min_transition_threshold"]}
{"id": "C26", "title": "Base58Check encoding is injective and exactly invertible", "statement": "Decoding the base58check encoding of any payload returns the payload; any accepted string is exactly the encoding of the returned payload; leading zero bytes correspond to leading '1's; non-alphabet characters and wrong checksums are rejected; encoding never panics.", "quantifier": "every byte string, every checksum function", "why_tests_cant": "positional base conversion with carries over unbounded lengths", "anchors": ["base58/src/lib.rs: encode_check, encode_unbounded, decode, decode_check, decode_check_to_array"]}
{"id": "C27", "title": "Hash engines do not depend on input splitting", "statement": "Feeding a message to a hash engine in any sequence of pieces gives the same digest as hashing it at once, equal to the specification (padding + compression fold) of the whole message; midstates resume correctly.", "quantifier": "every message, every splitting, every block-aligned midstate", "why_tests_cant": "unbounded messages and all splittings around block boundaries", "anchors": ["hashes/src/internal_macros.rs: engine_input_impl", "hashes/src/sha256/mod.rs: HashEngine, finalize, Midstate"]}
{"id": "C28", "title": "HMAC and HKDF follow their RFC definitions", "statement": "The HMAC engine computes H(K^opad || H(K^ipad || m)) for every key length (hashing long keys, zero-padding short ones) and any splitting of the message; HKDF expand yields exactly the requested length or an error beyond 255 blocks.", "quantifier": "every key, message, output length", "why_tests_cant": "all key lengths around block size; unbounded output lengths", "anchors": ["hashes/src/hmac/mod.rs", "hashes/src/hkdf/mod.rs"]}
{"id": "C29", "title": "ChaCha20-Poly1305 decrypts what it encrypts and rejects tags that do not verify", "statement": "Decrypting the ciphertext with the returned tag and same key, nonce and associated data returns the plaintext in place; any other tag is rejected and leaves an error; keystream seeks are consistent with sequential application; Poly1305 limb arithmetic equals arithmetic modulo 2^130-5.", "quantifier": "every key, nonce, plaintext, associated data, tag", "why_tests_cant": "unbounded messages, 130-bit modular arithmetic with carries", "anchors": ["chacha20_poly1305/src/lib.rs", "chacha20_poly1305/src/chacha20.rs", "chacha20_poly1305/src/poly1305.rs"]}
{"id": "C30", "title": "BIP158 filters have no false negatives", "statement": "A filter written from a set of elements matches every query containing one of them (match_any) and every non-empty subset (match_all); the bit-stream and Golomb-Rice codings round-trip. This holds through any writer that takes all bytes, in pieces of any size and interrupted at any time, and through any reader that delivers them so.", "quantifier": "every element set, query and SipHash key; every bit width and value", "why_tests_cant": "unbounded sets; bit-level packing", "anchors": ["bitcoin/src/bip158.rs: GcsFilterWriter, GcsFilterReader, BitStreamReader, BitStreamWriter"]}
{"id": "C31", "title": "Partial Merkle trees prove exactly the matched transactions", "statement": "Building a partial Merkle tree from txids and match flags and extracting it returns exactly the matched txids with their positions in order and the block's Merkle root; any tree accepted by extraction yields transaction ids that are in every transaction list with that root and count, or a hash collision is exhibited; encoding round-trips. The number of hashes, flag bits and bytes stays within the documented bounds.", "quantifier": "every txid list, every flag vector, every adversarial tree", "why_tests_cant": "unbounded tree sizes, adversarial proofs", "anchors": ["p2p/src/merkle_tree.rs: PartialMerkleTree, MerkleBlock"]}
{"id": "C32", "title": "Compact block short ids and differential indexes round-trip", "statement": "Prefilled transaction indexes encode/decode through differential form without overflow; requested index lists are strictly increasing after decode; the compact block built from a block covers every transaction once, prefilled or by short id.", "quantifier": "every index list, every block", "why_tests_cant": "all index sequences; overflow adversarial", "anchors": ["p2p/src/bip152.rs"]}
{"id": "C33", "title": "P2P message framing round-trips and rejects corruption", "statement": "A framed message decodes to itself from its encoding with trailing bytes left; payload length and checksum are enforced.", "quantifier": "every message, every byte string", "why_tests_cant": "adversarial streams", "anchors": ["p2p/src/message.rs"]}
{"id": "C34", "title": "Taproot script trees: every leaf's control block verifies", "statement": "For any tree accepted by the builder, each leaf's Merkle branch recomputes the root; branch order is immaterial due to sorted hashing; depth never exceeds 128; a different leaf or path verifying against the root exhibits a hash collision.", "quantifier": "every script tree, leaf, depth sequence", "why_tests_cant": "unbounded trees", "anchors": ["bitcoin/src/taproot/mod.rs: TaprootBuilder, NodeInfo, TaprootSpendInfo, ControlBlock"]}
{"id": "C35", "title": "Derivation paths and child numbers round-trip", "statement": "Formatting and parsing child numbers and derivation paths is the identity; hardened/normal indices partition the u32 space; the u32 conversion is a bijection.", "quantifier": "every path of any length, every u32", "why_tests_cant": "unbounded lists and strings", "anchors": ["key_expression/src/bip32.rs: ChildNumber, DerivationPath"]}
{"id": "C36", "title": "Transaction weight, base size and vsize equal the encoding's lengths", "statement": "total_size, base_size, weight and vsize computed arithmetically equal the lengths of the actual encodings with and without witness (weight = 3*base+total); without witness is what is encoded once every witness is replaced by the empty one, except for a transaction without inputs.", "quantifier": "every transaction", "why_tests_cant": "unbounded structure", "anchors": ["bitcoin/src/blockdata/transaction.rs: weight, base_size, total_size"]}
{"id": "C37", "title": "Integer parsing from text accepts exactly the numerals", "statement": "Hex/decimal integer parsing accepts exactly the texts denoting a number in range and returns that number.", "quantifier": "every string", "why_tests_cant": "all strings", "anchors": ["units/src/parse_int.rs"]}
{"id": "C38", "title": "SipHash, short ids and message authentication are splitting independent", "statement": "SipHash-2-4 over any pieces equals that over the concatenation; equals the reference definition.", "quantifier": "every key, message, splitting", "why_tests_cant": "unbounded messages", "anchors": ["hashes/src/siphash24/mod.rs"]}
{"id": "C39", "title": "Signature hashes commit to what the flag says", "statement": "Legacy, segwit v0 and taproot sighash messages: changing a field the sighash type does not cover leaves the digest unchanged; changing a covered field changes the hashed message; caching never changes the result.", "quantifier": "every transaction, input index, sighash type, sequence of cached calls", "why_tests_cant": "all transactions and mutation pairs", "anchors": ["bitcoin/src/crypto/sighash.rs"]}
{"id": "C40", "title": "Block locators, median time and other chain helpers are exact", "statement": "Block locator hashes step back exponentially and end at genesis; median time past is the median of 11 timestamps and order independent.", "quantifier": "every height, every timestamp multiset", "why_tests_cant": "unbounded heights, all permutations", "anchors": ["p2p/src/message_blockdata.rs: BlockLocator", "units/src/block.rs: BlockMtp::new"]}
{"id": "C41", "title": "Signature-operation counting is total and additive", "statement": "Counting sigops is defined on every script, is additive over concatenation at instruction boundaries, and accurate counting never exceeds the legacy count.", "quantifier": "every script", "why_tests_cant": "every byte string", "anchors": ["bitcoin/src/blockdata/script/borrowed.rs: count_sigops"]}
{"id": "C42", "title": "Small fixed-capacity vectors refine ordinary lists", "statement": "ArrayVec operations behave as list operations within capacity and panic only when capacity is exceeded.", "quantifier": "every operation history", "why_tests_cant": "all histories", "anchors": ["internals/src/array_vec.rs"]}
{"id": "C43", "title": "Readers and writers of the io crate behave like cursors over byte strings", "statement": "Cursor, Take and slice readers return consecutive pieces of the underlying bytes, never beyond the limit, and read_exact/read_to_limit return exactly the requested bytes or an error.", "quantifier": "every byte string, every schedule of read calls and buffer sizes", "why_tests_cant": "all schedules", "anchors": ["io/src/lib.rs: Read, Take, Cursor"]}
{"id": "C44", "title": "OutPoint and hash text forms round-trip", "statement": "Displaying then parsing an outpoint or hash is the identity, parsing accepts no second spelling with leading zeros/plus.", "quantifier": "every value and string", "why_tests_cant": "all strings", "anchors": ["primitives/src/transaction.rs: OutPoint FromStr"]}
{"id": "C45", "title": "Taproot spends are read from witnesses as BIP341 says", "statement": "The annex, leaf script and control block accessors of a witness return what BIP341 assigns: the annex is the last of two or more elements when it begins with 0x50, and with it set aside one element is a key path spend and otherwise the last two elements are the leaf script and control block.", "quantifier": "every witness stack, every control block decoder", "why_tests_cant": "all element counts and contents, including annex-looking elements in every position", "anchors": ["bitcoin/src/blockdata/witness.rs: P2TrSpend::from_witness, taproot_annex, taproot_leaf_script, taproot_control_block"]}
{"id": "C46", "title": "Block validation accepts exactly the blocks that obey the rules, and binds their content", "statement": "Validating a block succeeds exactly when it has transactions, the first spends the null outpoint alone, the header's Merkle root is the root of the transaction ids with no equal siblings, and either the last BIP141 commitment output of the coinbase equals the hash of the witness root and the coinbase's single 32-byte witness element, or there is no such output and no transaction has a witness. The error otherwise names the first broken rule. Two valid blocks with the same Merkle root have the same transactions including witnesses, or an explicit hash collision is among the messages hashed, or one block's ids are inner nodes of the other's tree.", "quantifier": "every block with representable witnesses, every hash function with 32-byte output", "why_tests_cant": "blocks and witnesses of every size and every hash function; a security property over pairs of blocks", "anchors": ["primitives/src/block.rs: Block::validate, check_merkle_root, check_witness_commitment, compute_witness_root, witness_commitment_from_coinbase"]}
{"id": "C48", "title": "Dust limits and effective values are exact", "statement": "The smallest non-dust output for a script carries exactly Bitcoin Core's dust threshold for that script (at the default and at any custom relay rate, or nothing when it is out of range), and the effective value of an output is its value less the fee of the input spending it at the given rate, saturating at the money supply.", "quantifier": "every script below 4 GiB, every fee rate, every input weight prediction, every amount", "why_tests_cant": "scripts, rates and weights are unbounded combinations; rounding and overflow corner cases", "anchors": ["bitcoin/src/blockdata/script/borrowed.rs: minimal_non_dust, minimal_non_dust_custom", "bitcoin/src/blockdata/transaction.rs: TxOut::minimal_non_dust, effective_value"]}
{"id": "C47", "title": "Addresses have one text, one output script and the right networks", "statement": "Every address has exactly one text form (Base58Check for legacy addresses, bech32/bech32m for segwit ones, in lower case), parsing accepts exactly that text (and the all upper case form of a segwit one) and returns the address on every network kind the text is valid for; an accepted text is what the address displays, in the ordinary or the alternate form; parse errors are exact and nothing panics. The output script of an address is the template of its type, an address is recovered from its output script exactly when the script is one of the templates, and require_network succeeds exactly on the networks that use the address's prefix. Changing up to three characters of a bech32 text, or any six consecutive ones, never yields another valid text with the same prefix and checksum kind.", "quantifier": "all addresses (any hash, witness version and program), all strings, all scripts, all networks", "why_tests_cant": "The space of addresses and of corrupted strings is astronomically large; tests check a handful of vectors.", "anchors": ["addresses/src/lib.rs: Address Display/FromStr, script_pubkey, matches_script_pubkey, require_network, is_valid_for_network, address_type, is_related_to_pubkey, p2pkh/p2sh/p2wpkh/p2wsh/p2tr/p2shwpkh", "bitcoin/src/address.rs: from_script", "addresses/src/witness_program.rs"]}
{"id": "C49", "title": "Keys: bytes, text, WIF and key sets", "statement": "A public key is read from bytes exactly when they are the 33-byte compressed or 65-byte uncompressed form of a point of the curve, and writes back to the same bytes in the form it was read in; two different keys never share a serialization; its text is exactly the hex of these bytes. The full public key, the legacy one and the hashes are computed from these bytes. The order used to sort keys is the lexicographic order of their serializations, a strict total order. A private key is accepted exactly when it is a number from 1 to the group order minus one. WIF texts are exactly the Base58Check texts of the version byte, the key and the optional compression byte: writing then reading gives the same key, network kind and compression flag, anything else is refused with the right error, and the network is visible in the first character.", "quantifier": "every byte string, text, curve satisfying the stated laws, secret key, network kind and compression flag", "why_tests_cant": "round trips and exact acceptance sets range over all strings; tests hold a few vectors", "anchors": ["crypto/src/key.rs: PublicKey::from_slice, write_into, FromStr, SerializedPublicKey ..., PrivateKey::to_wif, from_wif, negate"]}
{"id": "C50", "title": "Signatures with a sighash type: bytes, text and iteration", "statement": "An ECDSA signature with its type is read from bytes exactly when they are a parseable DER signature followed by one of the six standard type bytes, and the errors tell apart the empty input, an unknown type and a bad DER part; writing is the DER bytes followed by the type byte and is injective. A taproot signature is read exactly from 64 bytes (the default type) or 65 bytes ending in a non-default valid type, and is written the same way; its hex text likewise. The owned iterator over a serialized taproot signature behaves as a double-ended queue over exactly its bytes, for every interleaving of calls.", "quantifier": "every byte string, text, signature, type and sequence of iterator calls", "why_tests_cant": "exact acceptance of a decoder and behaviour under every interleaving of next/next_back/nth cannot be enumerated", "anchors": ["crypto/src/ecdsa.rs: Signature, SerializedSignature", "crypto/src/taproot.rs: Signature, SerializedSignature, IntoIter"]}
{"id": "C51", "title": "Networks: names, magic bytes, chain hashes, ports and genesis blocks", "statement": "Every network has one name for each naming scheme and parsing accepts exactly those names, handing back the input otherwise; magic bytes and chain hashes are Bitcoin Core's, tell the networks apart, convert back to the network and have an exact hex text; default ports are Core's. The genesis block built for each network hashes, under real SHA-256, to that network's chain hash, has Core's Merkle root, passes block validation and meets its own proof of work, and building it never panics. The text of a set of service flags lists exactly the named bits that are set and the remaining bits in hex.", "quantifier": "every network, string, byte string and set of service bits", "why_tests_cant": "exact acceptance sets and tables that must agree with each other across crates; tests check them entry by entry", "anchors": ["network/src/lib.rs: Network::from_core_arg, to_core_arg, Display, FromStr", "p2p/src/lib.rs: Magic, ServiceFlags Display", "p2p/src/network_ext.rs", "bitcoin/src/blockdata/constants.rs: genesis_block, ChainHash", "bitcoin/src/network/mod.rs: TryFrom<ChainHash>"]}
{"id": "C52", "title": "Signed messages: hashing, signature bytes and text, verification", "statement": "The hash signed for a message is the double SHA-256 of the magic text and the message, each preceded by its length, so two messages with one hash are equal or exhibit a collision. A message signature is written as its header byte (27 plus recovery id plus 4 for a compressed key) and the 64 compact bytes, and in base64; everything written reads back, the exact sets of accepted byte strings and texts are known, errors say what is wrong and nothing panics. A message signed with a private key verifies, after a trip through its text, for the P2PKH address of that key; a signature verifies for an address exactly when the address is that of the recovered key in the recovered form; other address types are refused by name.", "quantifier": "every message, byte string, text, private key, signature and address, and every curve and recoverable signature scheme with the stated laws", "why_tests_cant": "tests sign a few messages with one key; the claims range over all messages, texts and keys", "anchors": ["bitcoin/src/sign_message.rs: signed_msg_hash, sign, MessageSignature::{serialize, from_byte_array, from_slice, recover_pubkey, is_signed_by_address, from_base64, to_base64}"]}
{"id": "C53", "title": "Opcode names and the text of scripts identify them", "statement": "Every one of the 256 opcodes prints a distinct name (Display of opcodes and as_str agree except for opcode 0, OP_0 and OP_PUSHBYTES_0). Display of a script consisting of whole instructions is the names of its opcodes, each followed by the lower-case hexadecimal of the data it pushes if any, separated by single spaces; two such scripts with the same text are equal. A script cut off inside its last instruction prints its whole instructions and a marker, '<unexpected end>' when the length is cut and the name of the opcode and '<push past end>' when the data is; the character '<' appears exactly then. Printing never fails.", "quantifier": "all opcodes; all byte strings", "why_tests_cant": "256 opcodes and unboundedly many scripts of any length and nesting of pushes; injectivity relates all pairs of scripts", "anchors": ["primitives/src/opcodes.rs fmt_opcode", "bitcoin/src/blockdata/opcodes.rs as_str opcode_to_str", "primitives/src/script/mod.rs Display Debug for Script"]}
{"id": "C54", "title": "Height, sizes, weight and version bits of blocks", "statement": "The height read from a block of version 2 or more is h exactly when the script of the coinbase's first input starts with the encoding of h that Bitcoin Core writes (OP_0, OP_1 to OP_16 or a direct push of the shortest script number) and h is below 2^31; otherwise the error says whether the first element is pushed with too long an opcode or as a number with excess bytes, is negative, or is no push of at most four bytes, and versions below 2 as signed numbers are unsupported. Every height below 2^31 has exactly one such encoding and push_int writes it. Reading the height of a block that passed validation never panics. The total size of a block is the length of its serialization; its weight is three times the length of the serialization without witnesses plus the total size. A version signals soft fork bit b exactly when b is at most 28, the top three bits are 001 and bit b is set.", "quantifier": "all blocks whose transactions have the shape the decoders accept; all scripts of all lengths; all 32-bit versions and all bit numbers", "why_tests_cant": "unboundedly many scripts, heights and blocks; unit tests check a few mainnet blocks", "anchors": ["bitcoin/src/blockdata/block.rs bip34_block_height total_size weight coinbase new_checked Bip34Error", "primitives/src/block.rs Version::is_signalling_soft_fork"]}
{"id": "C55", "title": "Hexadecimal forms of encodable values", "statement": "LowerHex, UpperHex and Display of a transaction, block, header or witness without options write the digits of its consensus encoding in the case asked for. With options they write fill characters, 0x or 0X for the alternate form, the digits (as many as a precision leaves room for) and fill characters, aligned as core::fmt does; the fill makes up what a width exceeds the whole text. Parsing a transaction, block, header or length-prefixed script from text succeeds with a value exactly when the text spells that value's encoding in hex digits of any case and the value satisfies the decoder's rules, so what is displayed parses back to the same value; odd lengths and bad characters give errors saying so, surplus or missing digits are refused and parsing never panics. Scripts without length prefix and witnesses from lists of hex texts likewise. Scripts are always written in small letters; hashes, network magics, chain hashes and signatures in the case asked for.", "quantifier": "all values the decoders accept; all byte strings; all formatting options; all texts, ASCII or not", "why_tests_cant": "unboundedly many values and texts, every combination of five formatting options and texts around the internal 4096-byte buffer", "anchors": ["primitives/src/hex_codec.rs HexPrimitive fmt_hex", "consensus_encoding/src/decode/mod.rs decode_from_hex", "primitives/src/transaction.rs FromStr Display LowerHex UpperHex", "primitives/src/block.rs FromStr Display LowerHex UpperHex", "primitives/src/witness.rs from_hex LowerHex", "primitives/src/script/owned.rs from_hex_prefixed from_hex_no_length_prefix", "primitives/src/script/borrowed.rs to_hex_string_prefixed to_hex_string_no_length_prefix"]}
{"id": "C56", "title": "serde restores consensus values, hashes, scripts, witnesses, out points and taproot trees", "statement": "Serializing a value with serde and deserializing it with the same format gives the same value: for values sent in consensus encoding (also optional and in lists) the encoding in lower case hexadecimal for formats for people and as bytes otherwise; for hashes their display text or bytes; scripts; witnesses element by element; out points; taproot leaves, trees without hidden parts and merkle branches; bounded arrays. Only the expected forms are accepted (right length, valid hexadecimal, whole encoding, at most 128 branch elements, capacity respected) and nothing a format delivers makes deserialization panic. Exceptions: out points in sequence-based self-describing formats and trees in compact formats.", "quantifier": "every value, every content of the data model or byte string a format can deliver, human-readable and not, optional values marked or not", "why_tests_cant": "values are unbounded and the content delivered by a format is arbitrary; tests cover a few literals in two formats", "anchors": ["consensus_encoding/src/serde_as_consensus.rs", "hashes/src/macros.rs: serde_impl", "primitives/src/script/mod.rs", "primitives/src/witness.rs", "primitives/src/transaction.rs: OutPoint", "bitcoin/src/taproot/mod.rs: NodeInfo, TapTree", "taproot_primitives/src/lib.rs: LeafVersion", "internals/src/array_vec.rs"]}
{"id": "C57", "title": "serde restores addresses, keys, paths, numbers, lock times, amounts and fee rates", "statement": "Serializing a value with serde and deserializing it with the same format gives the same value: addresses, extended keys, derivation paths, networks (own names and Core names) and signature hash types as their text; WIF keys; public keys as lower case hexadecimal or bytes; 256-bit targets and work as 64 digits or 32 bytes; heights, times, weights, versions, sequences and lock times as their number; amounts in satoshi or as text in bitcoin, optional and in lists. Only the expected forms and ranges are accepted, and nothing a format delivers makes deserialization panic. Fee rates come back rounded to the unit of the form, and only up to the money supply in that unit. Exceptions: the parity of an x-only key is lost, optional amounts as text are not read back by formats that mark optional values.", "quantifier": "every value, every content of the data model or byte string a format can deliver, optional values marked or not", "why_tests_cant": "values are unbounded and the content delivered by a format is arbitrary; tests cover a few literals in two formats", "anchors": ["internals/src/serde.rs", "network/src/lib.rs: Network, as_core_arg", "addresses/src/lib.rs: Address", "crypto/src/key.rs: WifKey, LegacyPublicKey, FullPublicKey, XOnlyPublicKey", "key_expression/src/bip32.rs", "units/src/pow.rs: U256", "units/src/locktime", "units/src/amount/serde.rs", "units/src/fee_rate/serde.rs", "primitives/src/witness_version.rs"]}
{"id": "C58", "title": "Values cross any reader or writer intact", "statement": "Encoding a value through the io crate into a writer gives the writer exactly the value's serialization, or an error and a proper prefix of it; decoding from a reader gives the value exactly when the reader's bytes begin with its serialization, and leaves the reader directly behind it, so that values written one after the other are read back one after the other. How many bytes the reader or writer moves per call, how often it is interrupted and how large the intermediate buffer is (unless it has size zero) make no difference; an I/O error other than an interruption is reported as such, and a decoding error is the one the decoder gives on those bytes.", "quantifier": "every value and decoder of the library, every reader and writer keeping its trait's contract, every schedule of partial transfers, interruptions and failures, every buffer size", "why_tests_cant": "Short reads, interruptions and chunk boundaries combine in unboundedly many ways; tests use slices and cursors, which never split or fail.", "anchors": ["io/src/lib.rs: encode_to_writer, drain_to_writer, decode_from_read, decode_from_read_with, decode_from_read_unbuffered, decode_from_read_unbuffered_with"]}
{"id": "C59", "title": "Transaction verification checks every input once, in order", "statement": "Verifying a transaction asks the caller's closure for the output of each input, in order and once each, and has libbitcoinconsensus check each with that output's script and amount, the input's index, the full serialization of the transaction and the caller's flags; it succeeds exactly when every output is known and every check succeeds, and otherwise reports the first input for which this fails, asking nothing further. With a closure that does not return an output twice, success implies that the inputs spend distinct outputs.", "quantifier": "every transaction, every verifier, every closure with any internal state, every flags", "why_tests_cant": "The result depends on the number of inputs, the position of the first failure and the closure's history.", "anchors": ["bitcoin/src/consensus_validation.rs: verify_script, verify_script_with_flags, verify_transaction, verify_transaction_with_flags"]}
{"id": "C60", "title": "SHA-256 is the same function on every processor and build", "statement": "Whatever processor features are detected and whichever crate features are enabled, hashing a message in any pieces gives FIPS 180-4 SHA-256 of the message (twice applied for the double hash), an engine may be fed and finalised on different machines with midstates taken and resumed in between, the batched double hash of 64-byte messages writes the double hash of every message into the outputs whatever they held and panics only when there are not as many outputs as inputs, and no instruction is run that the processor lacks as long as detection reports only features that exist. The SHA-NI, ARMv8, SSE4.1 and AVX2 routines each equal the standard's function on their own.", "quantifier": "every message and splitting, every batch length, every prior content of the outputs, every combination of crate features, architecture and detected processor features", "why_tests_cant": "a test run exercises only the routine that the test machine selects, on a few messages; agreement of four vectorised routines with the standard on all inputs cannot be sampled", "anchors": ["hashes/src/sha256/crypto/mod.rs: HashEngine::process_blocks, HashEngine::sha256d_64", "hashes/src/sha256/crypto/x86_shani.rs: process_blocks, sha256d_64_2way", "hashes/src/sha256/crypto/arm_sha2.rs: process_blocks, sha256d_64_2way", "hashes/src/sha256/crypto/sse41.rs: sha256d_64_4way", "hashes/src/sha256/crypto/avx2.rs: sha256d_64_8way", "hashes/src/sha256d/mod.rs: Hash::hash_64_many"]}
{"id": "C61", "title": "Ready-made spends unlock the outputs they are made for", "statement": "The witnesses and input scripts that the library builds (Witness::p2wpkh, p2wsh, p2tr_key_spend, push_p2tr_script_spend, ScriptSigBuf::p2sh_p2wpkh, p2sh_p2wsh) satisfy the structural rules of BIP16, BIP141 and BIP341 for the output of the address made from the same key, script or tree: validation arrives at exactly the given script with the given stack, or at the given signature. What was put in is read back by redeem_script, witness_script and the taproot accessors. Scripts made by to_p2sh, to_p2wsh and to_p2tr are those the addresses pay to; keys and lock times pushed by a builder are read back; provably unspendable means that the first opcode fails; virtual size counts signature operations as weight and rounds up.", "quantifier": "Every key, signature, sighash type, script, satisfaction stack, script tree of depth up to 128, leaf, annex beginning with 0x50, network; hash functions and curves are arbitrary subject to their laws.", "why_tests_cant": "Each construction has unboundedly many inputs and must meet rules stated elsewhere (hashes of what is revealed, control block and parity); tests try single vectors.", "anchors": ["bitcoin/src/blockdata/witness.rs: p2wpkh, p2wsh, p2tr_key_spend, push_p2tr_script_spend, push_ecdsa_signature", "bitcoin/src/blockdata/script/owned.rs: p2sh_p2wpkh, p2sh_p2wsh", "bitcoin/src/blockdata/script/borrowed.rs: to_p2sh, to_p2wsh, to_p2tr, p2pk_public_key, is_standard_op_return, is_provably_unspendable", "bitcoin/src/blockdata/script/builder.rs: push_key, push_x_only_key, push_lock_time", "bitcoin/src/policy.rs: get_virtual_tx_size"]}
{"id": "C62", "title": "Amounts survive floating point", "statement": "Amount::to_float_in, to_btc and their signed counterparts return the f64 nearest to the amount in the denomination, never panic, and keep the order: different amounts give different numbers. from_float_in and from_btc accept exactly the f64 numbers of valid amounts (the signed ones also minus zero) and return that amount, so every amount comes back from floating point exactly; infinities, NaN and negative numbers are errors. serde's as_btc reads back what it wrote. from_sat_hex and from_sat_unprefixed_hex accept exactly the hexadecimal numerals of valid amounts with, respectively without, the 0x prefix.", "quantifier": "Every amount and signed amount, every denomination, every f64 (including subnormals, infinities, NaN and minus zero) with any shortest text for it, every text for the hexadecimal readers.", "why_tests_cant": "There are 2.1e15 amounts, six denominations and 2^64 f64 numbers; a rounding error would show in only some of them.", "anchors": ["units/src/amount/unsigned.rs: to_float_in, to_btc, from_float_in, from_btc, from_sat_hex, from_sat_unprefixed_hex", "units/src/amount/signed.rs: to_float_in, to_btc, from_float_in, from_btc, from_sat_hex, from_sat_unprefixed_hex, from_sat_u64", "units/src/amount/serde.rs: as_btc"]}
{"id": "C63", "title": "Ready-made weight predictions never underestimate the weight of a spend", "statement": "For every transaction whose inputs spend outputs of keys (native and nested segwit key hashes, legacy key hashes with compressed or uncompressed keys, taproot key path with default or other sighash type), the weight predicted from InputWeightPrediction's constants or ground_* functions and the lengths of the output scripts is the weight of the transaction corrected by exactly the difference between expected and actual signature lengths. So it is never too low when the S values are in the lower half (and, with one byte ground, the R values below 2^255). Taproot predictions are exact. Grinding by more than 62 bytes panics and grinding by 0 is the plain prediction.", "quantifier": "every transaction with any number of such inputs, every signature, key and output list", "why_tests_cant": "a test measures a few transactions with a few signatures; an underestimate would show only for particular signature sizes, and then as fees that are too low", "anchors": ["bitcoin/src/blockdata/transaction.rs: InputWeightPrediction::{P2WPKH_MAX,NESTED_P2WPKH_MAX,P2PKH_COMPRESSED_MAX,P2PKH_UNCOMPRESSED_MAX,P2TR_KEY_DEFAULT_SIGHASH,P2TR_KEY_NON_DEFAULT_SIGHASH,ground_p2wpkh,ground_nested_p2wpkh,ground_p2pkh_compressed}, predict_weight, predict_weight_from_slices", "bitcoin/src/blockdata/witness.rs: p2wpkh, p2tr_key_spend", "crypto/src/ecdsa.rs: Signature"]}
{"id": "C64", "title": "Peers' socket addresses survive being stored in network addresses", "statement": "An address message made from an IPv4 socket address gives that socket address back, on both sides of the wire; one made from an IPv6 socket address gives the same host and port back (without flow information and scope) unless the host is an IPv4-mapped, IPv4-compatible or OnionCat address, and what happens for those is exactly: the embedded IPv4 host, the embedded IPv4 host, and an error naming Tor v2. Turning an address into a socket address and back changes it only when it is IPv4-compatible. BIP155 addresses give an IP address back exactly when they hold one, unchanged, and the error otherwise names the network.", "quantifier": "every socket address, every address of either message version, every port and services value", "why_tests_cant": "there are 2^128 hosts, and only a few prefixes are treated specially", "anchors": ["p2p/src/address.rs: Address::{new,socket_addr,useless}, AddrV2Message::socket_addr, TryFrom<AddrV2> for IpAddr / Ipv4Addr / Ipv6Addr, From<IpAddr> for AddrV2, ToSocketAddrs"]}
{"id": "C65", "title": "Calculations with amounts, fee rates and weights are exact, whatever overloads they go through", "statement": "Take any calculation written with the operators +, -, *, /, %, unary minus and their assignment forms on Amount, SignedAmount, FeeRate and Weight, with each operand plain or a NumOpResult of an earlier step. The result is the exact value (divisions rounded down, fees rounded up) when every step fits its type, and otherwise an error. It never panics unless it unwraps an error or uses the plain operators of Weight and FeeRate. The operation an error reports is the operator of a step that failed, and an error that calls itself a division by zero comes from one.", "quantifier": "all calculations of any size and nesting, all values of the types, all choices between T and NumOpResult<T> for each operand", "why_tests_cant": "There are about sixty overloads, each with its own error branch, and a calculation mixes them freely; tests try a few short chains.", "anchors": ["units/src/result.rs: NumOpResult, MathOp, Add, Sub, AddAssign, SubAssign", "units/src/fee.rs: Mul, Div", "units/src/amount/result.rs: Add, Sub, Mul, Div, Rem, Neg", "units/src/internal_macros.rs: impl_add_assign_for_results, impl_sub_assign_for_results", "units/src/weight.rs: Add, Sub, Mul, Div, Rem", "units/src/fee_rate/mod.rs: Add, Sub, Div"]}
{"id": "C66", "title": "Comparing transactions, signatures, blocks and script trees", "statement": "Comparing two transactions (or inputs, outputs, outpoints, witnesses) is a total order: swapping the sides reverses the answer, less-than is transitive, and Equal is reported exactly when == holds, which is exactly when every field is the same; which of two transactions is first is decided by version, lock time, inputs and outputs in that order, so sorting any collection of them has only one possible result. Serialized signatures compare by the bytes in use only, whatever lies behind them, and alike against a plain slice. Two blocks are == exactly when header and transactions are the same, whatever witness root was cached. Script tree nodes have a total order, compare Equal only if they are ==, and hash alike exactly when they are ==. Refuted: nodes that are == need not compare Equal (for every script, the leaf and the hidden node of its hash), and witnesses are not ordered as the lists of their elements.", "quantifier": "all pairs and triples of transactions, inputs, outputs, witnesses, serialized signatures, blocks and tree nodes", "why_tests_cant": "order laws quantify over triples of arbitrary nested values; unit tests compare a few hand-picked values", "anchors": ["primitives/src/transaction.rs Transaction::cmp, TxIn, TxOut, OutPoint derives", "primitives/src/witness.rs Witness derives", "primitives/src/block.rs Block::eq", "crypto/src/ecdsa.rs SerializedSignature", "crypto/src/taproot.rs SerializedSignature", "bitcoin/src/taproot/mod.rs NodeInfo Ord/PartialEq/Hash"]}
{"id": "C67", "title": "Push data stays within its limit through every history", "statement": "Whatever sequence of push, extend_from_slice, pop, remove, clear, truncate and indexed writes is made on a PushBytesBuf, starting from any accepted slice, vector or array, every answer and the contents are those of a plain byte string that never holds more than 2^32-1 bytes: a call that would exceed the limit is refused with the length it would have had and changes nothing, a call that panics changes nothing, and no other call fails. Slices and vectors are accepted exactly up to the limit. Indexing by any kind of range gives the bytes between the bounds, again as push data, and panics exactly when the range is not inside. Whatever was done, the contents can be pushed on any readable script, which then reads back with exactly one more instruction, pushing them.", "quantifier": "all buffers, all finite histories of calls with all arguments, all scripts pushed onto", "why_tests_cant": "the limit must survive every interleaving of mutating calls, and the boundary lies at four gigabytes", "anchors": ["primitives/src/script/push_bytes.rs PushBytes", "primitives/src/script/push_bytes.rs PushBytesBuf", "primitives/src/script/push_bytes.rs check_limit"]}
{"id": "C68", "title": "Cutting slices and arrays into arrays", "statement": "For every slice and every chunk size other than 0 (refused at compile time), as_chunks gives chunks of exactly that size and a shorter remainder which put together are the slice; chunks and remainder reach exactly the items of the slice and no item twice, so the unsafe casts never go out of bounds and the mutable versions never alias, and writing one item of one mutable chunk changes exactly that item. get_array, split_first_chunk and split_last_chunk give the items meant, or None exactly when they are not there. Everything that compiles with sub_array, split_array, split_first, split_last, first and get_static gives the items meant without panicking. Refuted: get_array panics instead of returning None when offset + length overflows.", "quantifier": "all slices in any memory, all chunk sizes, offsets and lengths, all writes", "why_tests_cant": "memory safety of pointer casts must hold for all lengths and sizes; tests check a few", "anchors": ["internals/src/slice.rs SliceExt", "internals/src/array.rs ArrayExt"]}
{"id": "C69", "title": "User agents", "statement": "For every first client and list of further clients, building a user agent gives exactly the BIP14 text /name:version(comment; comment)/.../ when no name or comment holds one of the characters / ( ) : and the text has at most 256 characters, and panics otherwise; add_client appends to any user agent. A text determines the clients: names, version texts and joined comments; and with two-digit months and days and no semicolon in comments, the clients themselves. In bytes, as on the wire, an accepted text has at most 1024, and at most 256 if it is ASCII. Refuted: the limit of 256 in bytes; and: dates with month or day of 100 and more, and comments holding a semicolon, make different clients look the same.", "quantifier": "all lists of clients with any names, versions and comments", "why_tests_cant": "unambiguity quantifies over pairs of client lists", "anchors": ["p2p/src/message_network.rs UserAgent::new", "p2p/src/message_network.rs UserAgent::add_client", "p2p/src/message_network.rs UserAgentVersion::push_comment", "p2p/src/message_network.rs ClientSoftwareVersion Display"]}
{"id": "C70", "title": "Difficulty as a floating point number", "statement": "For all targets and maximum targets, difficulty_float_with_max panics exactly for the target zero, and otherwise gives a finite number whose relative distance from the exact ratio is at most 2^-51; a smaller target or a larger maximum never gives a smaller number; a target equal to the maximum gives exactly 1. If both have at most 53 significant bits, the result is the f64 nearest to the ratio (ties to even) and lies between the whole difficulty and the next whole number. For every header on every network this applies, as compact targets have 24 significant bits.", "quantifier": "all pairs of 256-bit targets, all headers and networks", "why_tests_cant": "rounding errors depend on all bits of both numbers; tests compare four values", "anchors": ["bitcoin/src/pow.rs difficulty_float_with_max", "bitcoin/src/pow.rs difficulty_float", "bitcoin/src/blockdata/block.rs difficulty_float", "units/src/pow.rs U256::to_f64"]}
{"id": "C71", "title": "The fuzzing generators make valid values", "statement": "With the arbitrary feature, each generator yields only values that meet the invariants of its type and that can be serialised and read back, can yield every such value, and never panics, whatever the fuzzer's input. Exceptions are stated: block heights and block times come out only as the two extreme values, public extended keys can break the master key rule so that the decoder refuses them, tap trees can be ones no builder makes, unknown inventory types can be the known ones, unknown messages can have known names, block transaction requests can hold offsets the decoder refuses, two kinds of message are never made, and the generators of weight predictions and user agents can panic.", "quantifier": "Every fuzzer input, that is every sequence of draws, for the generators of amounts, lock times, sequences, heights, fee filters, witnesses, transactions, signatures, extended keys, taproot parts, weight predictions, network addresses, inventory vectors, commands, partial merkle trees, user agents, headers, blocks and network messages.", "why_tests_cant": "A generator feeds other tests; nothing tests it, and the inputs under which it panics or makes an invalid value are rare draws.", "anchors": ["units/src/amount/unsigned.rs: Arbitrary for Amount", "units/src/block.rs: impl_u32_wrapper (Arbitrary)", "primitives/src/transaction.rs: Arbitrary for Transaction", "crypto/src/ecdsa.rs: Arbitrary for Signature", "key_expression/src/bip32.rs: Arbitrary for Xpriv, Xpub", "bitcoin/src/taproot/mod.rs: Arbitrary for TapTree", "p2p/src/address.rs: Arbitrary for AddrV2", "p2p/src/message_network.rs: Arbitrary for UserAgent"]}
{"id": "C72", "title": "Errors and streams cross to std::io and back unchanged", "statement": "Converting one of this library's I/O errors to std::io::Error and back gives the same error. The other way keeps the boxed error and its source, and the kind whenever this library has it; Interrupted, UnexpectedEof and WouldBlock are neither made nor hidden. A type wrapped with FromStd or ToStd, or both, gives the same answers and goes through the same states as the wrapped one for any history of calls, errors converted, and this library's read_exact over the wrapped reads does what std's does. Exceptions are stated: OS error codes and the newer kinds are lost, and write_all reports UnexpectedEof where std reports WriteZero.", "quantifier": "Every error, every stream behaviour (a state machine with any results, including panics), every sequence of calls.", "why_tests_cant": "Tests convert a few errors and wrap a few concrete types; the claim is about any wrapped type, any history and any error.", "anchors": ["io/src/error.rs: ErrorKind, From<std::io::Error>, From<Error> for std::io::Error", "io/src/bridge.rs: FromStd, ToStd, impl_our", "io/src/lib.rs: Read::read_exact, Write::write_all"]}
{"id": "C73", "title": "Hashing an object is hashing its serialization", "statement": "Feeding an object's encoder into a hash engine of any of the library's hash functions gives the standard hash of the object's serialization, however the encoder cuts it into chunks, and also when objects and raw bytes are mixed in any order in one engine: the result is the hash of everything put end to end, and the engine's byte counter is the total length. On HMAC and tagged engines the counter is larger by the key block and the 64 tag bytes.", "quantifier": "every hash function, every encoder meeting the encoder contract, every sequence of objects and byte pieces below 2^61 bytes", "why_tests_cant": "every chunking and every mixture of pieces; a test hashes a few objects", "anchors": ["hashes/src/lib.rs encode_to_engine, encode_to_hash, drain_to_engine, HashEngine::n_bytes_hashed", "hashes/src/hmac/mod.rs n_bytes_hashed", "hashes/src/sha256t/mod.rs"]}
{"id": "C74", "title": "A tweaked key pair signs for the output key", "statement": "Tweaking a key pair and tweaking its x-only public key with the same merkle root agree on the key and the parity, and fail together. A signature made for a key path spend with the tweaked pair is a BIP-0340 signature of the given hash under the output key, whatever the secret key, root, sighash type, nonce and randomness; with the ready-made witness it spends the pair's Taproot address, also when the verifier knows only the 32 bytes in the output script. A signature made with the untweaked pair verifies under the pair's own key. Verification accepts exactly the BIP-0340 signatures. A negated private key has the same x-only key with the opposite parity and makes the same signatures. An x-only key with its parity gives back the full key.", "quantifier": "every secret key, merkle root, message, sighash type, nonce function and auxiliary randomness, over every group obeying the curve's laws", "why_tests_cant": "half of the keys need a negation before the tweak and half of the nonces another one; a test tries a few keys", "anchors": ["crypto/src/key.rs Keypair, XOnlyPublicKey::verify, PrivateKey::negate, TweakedKeypair::public_parts", "taproot_primitives/src/lib.rs TapTweak for UntweakedKeypair", "bitcoin/src/crypto/sighash.rs TapSighash::sign_key_spend, sign_script_spend"]}
{"id": "C75", "title": "Typing errors never lead to another segwit address", "statement": "Up to four wrong characters anywhere in the text of a segwit address (prefix and version included) never give the text of another segwit address of any network, as long as the version stays 0 or stays not 0; up to three never do, whatever the versions; so neither do two characters that changed places. Texts of version 0 addresses have two lengths only, twenty characters apart. (That up to four wrong characters are always found, as BIP173 promises, is refuted: with one of them in the version character a P2WSH address can become a P2TR address.)", "quantifier": "every pair of texts accepted by Address::from_str, every network, every version and program", "why_tests_cant": "the number of pairs of texts that differ in four places is beyond testing; the property is the minimum distance of the code over all lengths that occur", "anchors": ["addresses/src/lib.rs FromStr for Address, from_bech32_str", "addresses/src/witness_program.rs WitnessProgram"]}
{"id": "C76", "title": "What one node sends, another one can use and check", "statement": "Messages composed with the operations on their contents, from one node's API calls to the other's: (1) a Merkle proof built from a valid block of at most 16666 transactions, put in a message, written, cut into any pieces and decoded, yields exactly the chosen transaction ids and positions under the block's header; (2) if a client gets from untrusted peers a proof and a transaction that the proof reports, and the proof has the header hash and the transaction count of a valid block, then that block contains the transaction, up to witnesses, at the reported position; (3) a downloaded block that validates and has the hash of a valid block is that block; (4) a block's compact filter arrives unchanged and finds every script of the block, and so does any filter that a peer sends if it leads to the right filter header; (5) a compact block, a request for what it lacks and the answer reassemble the block at its positions. (2) to (4) hold unless an explicit pair of hashed messages collides (and (3) unless one block's ids are inner nodes of the other's tree)", "quantifier": "Every valid block, choice of transactions, filter query, prefill list, network magic and fragmentation of the byte stream, and every sequence of bytes an untrusted peer may send", "why_tests_cant": "Tests check each layer on a few captured messages; that the layers fit together for every block, every choice and every hostile sender is a statement about all of them", "anchors": ["p2p/src/message.rs: V1NetworkMessage", "p2p/src/merkle_tree.rs: MerkleBlock, PartialMerkleTree", "p2p/src/bip152.rs: HeaderAndShortIds, BlockTransactionsRequest, BlockTransactions", "bitcoin/src/bip158.rs: BlockFilter", "primitives/src/block.rs: Block::validate"]}
{"id": "C77", "title": "Errors, versions and intervals tell the truth about ranges", "statement": "When an amount is refused, the error says rightly whether it was too large or too small. Transaction versions 1, 2 and 3, and no others, are reported standard. The age of a coin, as an interval between median times, rounded down is the longest relative time lock that the coin satisfies, and rounded up the shortest one not below its age; intervals too long for a lock are refused, and then every lock is satisfied.", "quantifier": "all machine integers given as amounts, all 32-bit versions, all pairs of median times and all relative time locks", "why_tests_cant": "the boundaries lie among 2^64 values, and the statement about intervals compares two conversions and a check for all pairs of times and all locks", "anchors": ["units/src/amount/error.rs: OutOfRangeError::valid_range, is_above_max, is_below_min, Display", "units/src/amount/unsigned.rs: Amount::from_sat", "units/src/amount/signed.rs: SignedAmount::from_sat, to_unsigned", "primitives/src/transaction.rs: Version::is_standard", "units/src/block.rs: BlockMtpInterval::to_relative_mtp_interval_floor, to_relative_mtp_interval_ceil"]}
{"id": "C78", "title": "An encoder's chunks can be handed straight to a decoder", "statement": "Take any value that decodes from some byte string. Handing the chunks that its encoder shows, one after another, to a fresh decoder of its type, with no buffer between the two, finishes after at most as many rounds as there are chunks, never panics, and yields a value equal to the first. This holds for transactions, blocks and their parts, and for peer-to-peer payloads and framed messages.", "quantifier": "every byte string that decodes, every encoder that shows the encoding in any division into chunks, every number of rounds from the number of chunks on", "why_tests_cant": "the division into chunks depends on the shape of the value, and a decoder may stop or continue at each boundary", "anchors": ["fuzz/src/lib.rs: check_roundtrip, stream_encode_decode", "fuzz/fuzz_targets/bitcoin/encoding_roundtrip", "consensus_encoding/src/encode/mod.rs: Encoder", "consensus_encoding/src/decode/mod.rs: Decoder"]}
