# Formal model of rust-bitcoin in Rocq (Coq 8.16.1)

Source: /repo at the pinned commit, read as text.  Nothing is built or run from
/repo; each Gallina definition cites the file and lines it transcribes.

## Conventions of the model

* A byte is an `N` below 256; a byte string is `list N`; theorems about arbitrary
  byte strings carry the hypothesis `bytes_ok` (every element < 256), which is
  what `u8` guarantees in the source.
* Fixed-width integers are `N`/`Z` with the wrap/truncate written explicitly
  where the source can wrap.  Overflow checks and debug assertions are on, `usize`
  has 64 bits.  Panics are explicit results (`Panic`), never silently totalised.
* `&mut self` methods are functions returning the new state.  Loops are
  structural recursion, folds, or recursion on fuel; where fuel is used a theorem
  says the fuel given always suffices.
* Cryptographic primitives that a property does not look into are section
  variables of the development; after the section closes they are explicit
  universally quantified arguments of the theorem.  Security statements are of the
  form "equal, or here is a collision among the messages hashed".
* A text is the list of its Unicode scalar values (its UTF-8 bytes in base58).

## Trusted base

* Coq 8.16.1's kernel (with `vm_compute`).
* Axioms: none.  `Print Assumptions` stands under every property theorem in the
  `P*.v` files and answers "Closed under the global context" for each of them: no
  axiom of the standard library is used either.
* The transcription from Rust to Gallina, which is by hand.
* The behaviour of the dependencies that are not in /repo, where the code calls
  them: the bech32, hex and base64 crates are modelled from their documentation;
  libsecp256k1 is a parameter (records `curve`, `kcurve`, `ecurve`, `rcurve`)
  whose laws are hypotheses of the theorems that need them, met by a toy instance.
* Rust's core library (integer parsing and printing, slices, `Vec`, iterators) as
  written in the models.

## Layout (rocq/theories)

`Base.v` library; `M*.v` = model, no proofs; `S*.v` = independent
specification; `L*.v` = lemmas; `P*.v` = property theorems only, with
non-vacuity examples and `Print Assumptions`.

Tests against wrong programs are recorded in seeded/LOG.jsonl.


## Plan per property

| id | title | modelled | proof method | theorems in |
|----|----|----------|--------------|----|
| C01 | CompactSize is a bijective, minimal code | CompactSize encoder and both decoders as state machines | case split on the four forms, arithmetic | PCodec |
| C02 | Push decoders do not depend on how input is split | every primitive decoder and combinator as a state machine push/fin/limit | a `lawful` predicate (three split laws) closed under the combinators; induction on the list of chunks | PCodec, POnePush, PReady |
| C03 | All decode drivers agree and never over-read | slice, buffered, unbuffered and hex drivers over an arbitrary reader schedule | induction over the schedule from the laws of C02 | PCodec, PReadLimit |
| C04 | All ways of draining an encoder give the same bytes | encoders as state machines current_chunk/advance, byte iterator, drains | observational equality with a byte string, closed under the combinators | PEnc |
| C05 | Length-prefixed vectors: exact round trip and bounded allocation | ByteVecDecoder, VecDecoder, ExactVecDecoder with the capacity of the buffer | invariant over push histories | PCodec |
| C06 | Transaction serialization round-trips and is canonical | transaction encoder, TransactionDecoder with all its states | refinement of the state machine to a declarative wire format; round trip on the format | PTx |
| C07 | Transaction decoding enforces the structural rules | checks of TransactionDecoder::end | equivalence with the list of rules | PTx |
| C08 | txid ignores, wtxid commits to, witness data | hash_transaction, compute_txid/wtxid/ntxid over an arbitrary hash | equality of the hashed byte strings; collision extraction | PTx |
| C09 | Header, outpoint, input, output and block codecs round-trip and are canonical | remaining codecs of primitives | combinator closure | PCodec |
| C10 | Merkle root computation matches the recursive definition | both Merkle algorithms | binary-counter invariant; induction on levels | PMerkle |
| C11 | A Merkle root binds the leaf list | same | collision extraction | PMerkle |
| C12 | Witness behaves like a list of byte strings | Witness flat buffer with its index area, decoder, iterators | representation invariant, refinement to a list of byte strings | PWitness |
| C13 | Script pushes are parsed back, minimal and unambiguous | push_slice, push_int, builder, extend | induction over the builder operations | PRebuild, PScript |
| C14 | The instruction iterator is total and terminates | instruction iterators | well-founded measure; total parse relation | PScript |
| C15 | Script integers round-trip and are minimal | script integers | arithmetic on sign-magnitude little endian | PScript |
| C16 | Witness programs and their output scripts correspond one to one | script recognition, witness programs, multisig template | case analysis on bytes | PScript, PWitVer |
| C17 | Amounts stay within the money supply and arithmetic is exact | units arithmetic incl. NumOpResult chains | refinement to Z with a money range | PAmount, PAmountInt |
| C18 | Amount text format round-trips in every denomination | amount parser and printer | induction over digits | PAmountPos, PAmountRound, PAmountText |
| C19 | Fee and fee-rate conversions round in the documented direction | fees, fee rates, weights | exact rational rounding, nia | PAmount |
| C20 | Absolute lock times follow the consensus rule | absolute lock times | comparison with the consensus rule | PLock, PLockErr |
| C21 | Relative lock times and sequences follow BIP68 | sequences, relative lock times | comparison with BIP68 | PLock, PLockErr |
| C22 | 256-bit integers implement exact modular arithmetic | U256 limbs | refinement to Z mod 2^256 | PU256 |
| C23 | Compact target encoding follows the consensus rule | compact targets | comparison with arith_uint256::SetCompact/GetCompact | PPow |
| C24 | Target and work are inverse and antitone | work and targets | exact division | PPow |
| C25 | Difficulty adjustment stays within the consensus bounds | retargeting, thresholds | arithmetic with the network parameters | PPow |
| C26 | Base58Check encoding is injective and exactly invertible | base58 digit conversion, checksum | value-of-digits invariant | PBase58, PBase58Size |
| C27 | Hash engines do not depend on input splitting | engines with buffers; SHA-1, SHA-256, SHA-384, SHA-512, SHA-512/256, RIPEMD-160, SHA3-256, tagged and double hashes | buffer invariant, induction on pieces; equality with separate FIPS/RFC definitions | PHash |
| C28 | HMAC and HKDF follow their RFC definitions | HMAC, HKDF | equality with the RFC definitions | PHmac |
| C29 | ChaCha20-Poly1305 decrypts what it encrypts and rejects tags that do not verify | ChaCha20, Poly1305 limbs, AEAD | refinement to the RFC 8439 definitions | PChaCha |
| C30 | BIP158 filters have no false negatives | bit streams, Golomb-Rice coding, filter writer and reader | refinement to bit lists; merge-join correctness | PBip158, PFilterReader, PFilterWriter |
| C31 | Partial Merkle trees prove exactly the matched transactions | PartialMerkleTree build, extract, codec | induction on height; collision extraction | PPmt, PPmt2, PPmtSize |
| C32 | Compact block short ids and differential indexes round-trip | bip152 short ids, prefilled transactions, differential coding | induction; codec laws | PBip152 |
| C33 | P2P message framing round-trips and rejects corruption | all payloads, V1 and V2 message codecs | codec laws; checksum; injectivity | PExact, PP2p, PServices |
| C34 | Taproot script trees: every leaf's control block verifies | TaprootBuilder, NodeInfo, TaprootSpendInfo, control blocks, Huffman trees, serde of trees | induction on builder history; Kraft sums; optimality by exchange | PTaproot |
| C35 | Derivation paths and child numbers round-trip | BIP32 paths, child numbers, extended keys | induction on digits; group homomorphism of an abstract curve | PBip32, PRadix |
| C36 | Transaction weight, base size and vsize equal the encoding's lengths | sizes, weights, predictions | length of the encoding | PFuzz, PTx |
| C37 | Integer parsing from text accepts exactly the numerals | integer parsing and printing | induction on digits | PText |
| C38 | SipHash, short ids and message authentication are splitting independent | SipHash-2-4 | buffer invariant; equality with the reference definition | PSip |
| C39 | Signature hashes commit to what the flag says | legacy, segwit v0 and taproot messages, SighashCache, and the three encoding functions over any writer | equality with BIP143/BIP341 messages; cache invariant; injectivity; for writers, a relation with the in-memory function kept by every write | PSigWriter, PSighash, PSighash2 |
| C40 | Block locators, median time and other chain helpers are exact | block locators, median times | induction | PLock |
| C41 | Signature-operation counting is total and additive | signature-operation counts | induction over instructions | PScript |
| C42 | Small fixed-capacity vectors refine ordinary lists | ArrayVec with uninitialised cells | representation invariant | PArrayVec |
| C43 | Readers and writers of the io crate behave like cursors over byte strings | readers, writers, Take, Cursor, hash reader | induction over schedules with fuel bounds | PIo |
| C44 | OutPoint and hash text forms round-trip | outpoint and hash text | induction on digits | PText |
| C45 | Taproot spends are read from witnesses as BIP341 says | P2TrSpend and taproot accessors | case analysis against BIP341 | PWitness |
| C46 | Block validation accepts exactly the blocks that obey the rules, and binds their content | Block::validate and its parts | equivalence with the rules; collision extraction | PMerkle |
| C47 | Addresses have one text, one output script and the right networks | Address text, scripts, networks; bech32 and base58 | bijections; BCH code distance of the bech32 checksum | PAddress, PFuzz |
| C48 | Dust limits and effective values are exact | dust limits, effective value | exact arithmetic | PSpend |
| C49 | Keys: bytes, text, WIF and key sets | keys, key text, WIF, sorting | bijections | PKey |
| C50 | Signatures with a sighash type: bytes, text and iteration | signatures with sighash type | bijections; iterator invariant | PDebug, PSig |
| C51 | Networks: names, magic bytes, chain hashes, ports and genesis blocks | network names, magic, ports, chain hashes, genesis blocks | case analysis; hashing of the genesis headers computed by the kernel | PNetwork |
| C52 | Signed messages: hashing, signature bytes and text, verification | signed messages, base64 | bijections; injectivity of the hashed message | PMessage |
| C53 | Opcode names and the text of scripts identify them | opcode names, script text | injectivity by induction on instructions | PAsm |
| C54 | Height, sizes, weight and version bits of blocks | block sizes, weight, bip34_block_height, version bits | case analysis of the first instruction, uniqueness of minimal encodings, size lemmas | PBlockExt |
| C55 | Hexadecimal forms of encodable values | fmt_hex with all options, decode_from_hex on strings, FromStr and Display of encodable types | codec theorems lifted through the hex iterator and the 4096-byte flush loop | PHex, PHexCase |
| C56 | serde restores consensus values, hashes, scripts, witnesses, out points and taproot trees | serde implementations of consensus values, hashes, scripts, witnesses, out points, taproot trees, merkle branches and ArrayVec, as data-model values and deserializer requests; self-describing and compact (bincode 1) formats as interpreters | structural lemmas per request, codec theorems for consensus values, arithmetic of the misread bytes for the refuted cases | PSerde |
| C57 | serde restores addresses, keys, paths, numbers, lock times, amounts and fee rates | the serde implementations over the data model of MSerde.v: text types, keys, U256, integers, lock times, amounts (as_sat, as_str with opt and vec), fee rates (three forms with opt and vec); as_btc (floating point) is not modelled | the text and number theorems of the types themselves (C18, C20-C22, C35, C37, C39, C47, C49, C51) combined with the lemmas on requests; ASCII and length of every text; explicit bytes for the refuted optional amounts | PSerde2 |
| C58 | Values cross any reader or writer intact | The io crate's drivers, over abstract readers and writers given by their contracts (SIo.v), the library's decoders and encoders. | Induction on fuel with the decoders' denotation (lawful); termination from a bound on the failures still to come; exact consumption from the decoders' laws. End-to-end theorem for transactions. | PIoDrive |
| C59 | Transaction verification checks every input once, in order | The verification loop, with libbitcoinconsensus as an arbitrary function and the closure as an arbitrary state machine. | Induction on the inputs, with the index generalized; serialization by C04 and the wire format of SWire.v. | PVerify |
| C60 | SHA-256 is the same function on every processor and build | The vector code of the SHA-NI, ARMv8, SSE4.1 and AVX2 files instruction by instruction (a small register language whose instructions are the intrinsics), the dispatch on detected features, and the engine over the dispatched block function. Trusted: the meaning of the intrinsics, written from the Intel and ARM manuals in MSimd.v. | The straight-line programs are run symbolically into a shared expression graph together with the standard's compression, a kernel computation checks that both give the same graph nodes, and a soundness theorem (the graph's values under any assignment of the input words) turns this into equality for all inputs; lanes by a lane-wise simulation; loops, batches and engine by induction. | PSimd |
| C61 | Ready-made spends unlock the outputs they are made for | The constructors of witnesses and input scripts on top of the witness, script, key, signature, address and taproot models (MForms.v); the unlocking rules as an inductive relation between output script, input script, witness and what is run (SForms.v). | Composition of C12, C13, C16, C34, C45, C47, C49 and C50 with lemmas about the annex rule and the first byte of control blocks; the opcode table by checking all 256 opcodes. | PForms |
| C62 | Amounts survive floating point | f64 numbers as mantissa and exponent, the standard library's correctly rounded reading of decimal texts as a computable function, its writing as a parameter (MFloat.v); nearest f64 and shortest decimal text in integer arithmetic (SFloat.v). | The rounding is shown nearest among all f64 numbers; two decimals near the same f64 differ by less than 2^-51 of their size, so the shortest one is the amount, which has fewer than 2^51 units; then the text theorems of C18 and C37. | PFloat |
| C63 | Ready-made weight predictions never underestimate the weight of a spend | The constants and ground_* functions of InputWeightPrediction on top of the model of predictions (C36) and of the functions that build spends (C61); signatures are pairs of numbers below the group order in DER. | Each prediction and the prediction from the actual lengths are compared in weight units; predict_weight is shown linear on short inputs and C36 gives the actual weight; the sizes follow from the DER lengths of the numbers. A signature with both numbers in the upper half is the witness of the refutation. | PPredict |
| C64 | Peers' socket addresses survive being stored in network addresses | Address::new, socket_addr, AddrV2's conversions and AddrV2Message::socket_addr, with the std conversions between IPv4 and IPv6 addresses written out. | Hosts are specified as 32-bit and 128-bit numbers and the special prefixes as quotients of them; the segment comparisons of the code are shown to be those quotients. The wire part uses the codecs of C33. The IPv6 loopback is the witness of the refutation. | PSocket |
| C65 | Calculations with amounts, fee rates and weights are exact, whatever overloads they go through | Every operator overload between Amount, SignedAmount, FeeRate, Weight and their NumOpResult forms, the assignment operators, unwrap and unwrap_or (MCalc). A calculation is a typed term of any size (SCalc); running it picks the overload the operand types select. Overloads taking references, Sum and the Arbitrary impls are not modelled here (Sum of amounts is in C17). | Induction over the term against an exact integer meaning that has one rule per operator, not one per overload; the same induction carries the range of the value, the set of failed operators and the presence of a zero divisor. | PCalc |
| C66 | Comparing transactions, signatures, blocks and script trees | MOrd.v: the hand-written and derived comparison operators of Transaction, TxIn, TxOut, OutPoint, Witness, Header, Block, SerializedSignature and NodeInfo, as functions to comparison or bool. | Generic lemmas that a lexicographic combination of total orders is one (LOrd.v), applied bottom-up; the order itself is restated as a dictionary order on fields (SOrd.v); refutations by exhibiting values built through the API. | POrd |
| C67 | Push data stays within its limit through every history | MPush.v: check_limit, the TryFrom and array conversions, the mutating methods as one step function returning an answer and the new contents, range and position indexing (64-bit processor). | Each step refines a relational specification (SPush.v) that is shown to be deterministic; induction over the history keeps the limit; the link to scripts is C13. | PPush |
| C68 | Cutting slices and arrays into arrays | MView.v: slices as views (start, length) on a memory; split_at, the from_raw_parts casts, get_array, split_first_chunk, split_last_chunk and the ArrayExt methods with their compile-time assertions. | Induction over the chunks for contents; arithmetic on addresses for bounds and disjointness (SView.v states both). | PView |
| C69 | User agents | MAgent.v: UserAgent::new, add_client and from_nonstandard, UserAgentVersion::new and push_comment, the Display impls, with the two assertion helpers. | The text is computed against the BIP14 grammar (SAgent.v) by induction over the clients; reading back is by cutting at the separators, which cannot occur in names and comments. | PAgent |
| C70 | Difficulty as a floating point number | MDiff.v: difficulty_float_with_max, difficulty_float and the header method; f64 from its bits and IEEE division as an exact rational rounded to nearest even (the processor's division is trusted to be that). | The rounding of a rational is shown to depend on the ratio only and to keep the order; its relative error is bounded away from the subnormal numbers, and the three roundings (both targets, quotient) are combined; 24-bit targets are exact, so only the quotient rounds. | PDiff |
| C71 | The fuzzing generators make valid values | MArb.v: the Arbitrary implementations of amounts, lock times, sequences, heights, fee filters, witnesses, transactions, sighash types, ECDSA signatures, extended keys, leaf versions, branches, tap trees, weight predictions, addresses, inventory vectors, commands, partial trees and user agents, as sets of outcomes over every fuzzer input (value, out of data, panic). The byte-level draw functions of the arbitrary crate are not modelled beyond their documented ranges: any value of the range can come, or running out of data. | For each generator the exact set of values it can make (both directions) or that each made value is read back as written, and that no panic is an outcome; where that fails, a witness. By inversion of the draws and the codec theorems of C01, C33, C36. | PArb, PArb2 |
| C72 | Errors and streams cross to std::io and back unchanged | MBridge.v: ErrorKind with its two conversions and names, Error and its conversions, display and source, ReadError, the FromStd and ToStd adapters as functions between streams (records of the seven trait methods over a state), and the provided read_exact and write_all of both libraries. std's error representation, into_inner, kind and default methods are modelled from its documentation; the mapping of OS codes to kinds is a parameter. | Case analysis over the kinds; induction over the history of calls for the adapters and over fuel for the provided methods. | PBridge |
| C73 | Hashing an object is hashing its serialization | drain_to_engine, encode_to_engine, drain_to_hash, encode_to_hash over any encoder and any of the nine hash engines; n_bytes_hashed of plain, HMAC and tagged engines | the pieces an encoder hands over make up its content (induction on the steps of a sound encoder); the engines compute the standard function of the concatenation (C27) | PEncHash |
| C74 | A tweaked key pair signs for the output key | Keypair, tap_tweak of key pairs, public_parts, x-only keys and full keys, negate, raw_bip340_sign, sign_key_spend, sign_script_spend, XOnlyPublicKey::verify; libsecp256k1 after its documentation over an abstract group of the curve's order, BIP-0340 signing with an arbitrary nonce function | group laws (multiples of the generator modulo the order, the even representative of a point); the x-only curve of C34 is derived from the group and shown to meet C34's assumptions; end to end with C61, C47 and C50; the group laws are met by the residues modulo the order | PSign |
| C75 | Typing errors never lead to another segwit address | Address::from_str of MAddress.v with the bech32 checksum of MBech32.v, texts of BIP173 and BIP350 from SBech32.v | linearity of the checksum over GF(32): one error is scaled to 1 and shifted to the end, the remaining finite meet-in-the-middle table is evaluated by the kernel; prefixes of different lengths (bcrt and bc) and different residues (versions 0 and later) by further tables; explicit witness for the refuted claim | PTypo |
| C76 | What one node sends, another one can use and check | compositions of MP2pMsg.v (V1 transport), MPmt.v, MBip152.v, MBip158.v, MMerkle.v (block validation) and MTx.v | the wire theorems of C33 joined with those of C31, C32, C30, C46 and C08; size bounds of the payloads by induction on the partial tree and on the list of transactions; soundness against an arbitrary sender up to an explicit hash collision | PFlow |
| C77 | Errors, versions and intervals tell the truth about ranges | MQuery.v (the out-of-range error of amounts, transaction versions, median-time intervals) with MAmount.v and MLock.v | the direction of each error compared with the value refused, by case analysis; rounding related to the relative locks that a coin of that age satisfies, by division with remainder | PQuery |
| C78 | An encoder's chunks can be handed straight to a decoder | MStream.v (the loop that hands an encoder's chunks to a decoder) over MEnc.v's encoders and every decoder of MDec.v, MTx.v, MP2p.v and MP2pMsg.v | the chunks an encoder shows concatenate to the value's encoding, by induction over its remaining steps; a decoder fed that encoding in any division ends as it does when fed it at once (C02), and the round trip of each type does the rest | PStream |

Every theorem name is listed in MANIFEST.json.  No property of the list is left out as inexpressible.

## What is modelled, file by file

The header of each model file, which also says what it leaves out:

* `MAddress.v`: Addresses: addresses/src/lib.rs, addresses/src/witness_program.rs, bitcoin/src/address.rs, and the networks of network/src/lib.rs. The bech32 crate is MBech32.v. The type parameter that marks an address as checked has no content at run time: both forms of Address are `address`. Hash functions and the curve are parameters. Not modelled: serde, Debug, references and conversions between the two forms (assume_checked, as_unchecked, ...: the identity).
* `MAgent.v`: Model of the user agent builder: p2p/src/message_network.rs:193-380. A text is its list of characters. The wire form of a user agent is in MP2p.v.
* `MAlert.v`: Alerts: p2p/src/message_network.rs:533-586. An alert is its byte vector; writing and reading it is in MP2pMsg (MAlert).
* `MAlloc.v`: The vector decoders of MDec.v with the capacity of their buffer made visible. `size` is `mem::size_of::<D::Output>()`. `reserve_exact` is taken to reserve exactly what is asked. The second component of the state is the capacity in items.
* `MAmount.v`: Model of the arithmetic of the `units` crate: amounts, fee rates, weights. Unsigned and signed machine integers are `Z`; every place where the Rust code tests or relies on a machine range is explicit. Files: units/src/amount/{unsigned,signed,result}.rs, units/src/{result,fee,weight}.rs, units/src/fee_rate/mod.rs.
* `MAmountInt.v`: Signed amounts from small integers, and signs: units/src/amount/signed.rs, internals/src/const_casts.rs (the casts widen and keep the value).
* `MAmountText.v`: Amounts as text: units/src/amount/mod.rs:85-642, unsigned.rs, signed.rs.
* `MArb.v`: Model of the fuzzing generators, the implementations of the trait Arbitrary of the crate `arbitrary` (feature "arbitrary"), those that do more than draw each field. The crate is not in /repo. A generator is modelled by the set of the outcomes that some fuzzer input makes it have: a value, an error of the crate (`Gave_up`) or a panic. What is taken from the crate: `int_in_range(a..=b)` gives any number of the range and panics on an empty range, an integer, an array, a boolean or a string any value of its type, a vector any list of values of its element generator, and every draw may give up.
* `MArb2.v`: Model of the fuzzing generators of blocks and of peer-to-peer messages, in the terms of MArb.v: primitives/src/block.rs, p2p/src/{address,bip152,lib,merkle_tree,message,message_blockdata,message_bloom,message_compact_blocks,message_filter,message_network}.rs.
* `MArrayVec.v`: Model of internals/src/array_vec.rs: a vector of bounded capacity in an array of possibly uninitialised cells. A cell is `None` when uninitialised; reading such a cell through the slice is undefined behaviour, modelled by `UB`, which no safe history may reach. `debug_assert!` is on. serde's `SeqAccess` is the size hint and the items it will give.
* `MAsm.v`: Opcode names and the text of a script: primitives/src/opcodes.rs, primitives/src/script/mod.rs and bitcoin/src/blockdata/opcodes.rs. Formatting parameters (width, precision) are not modelled.
* `MBase58.v`: Base58check: base58/src/lib.rs. A string is the list of its UTF-8 bytes. sha256d is a parameter. The buffers hold digits, least significant first, in a Vec (`cap` is None) or an ArrayVec (`cap` is its capacity).
* `MBech32.v`: What the bech32 crate (version 0.11, a dependency, not in /repo) is taken to do: bech32::segwit::decode and encode_lower_to_fmt_unchecked / encode_upper_to_fmt_unchecked, called in addresses/src/lib.rs:365-367, 1074. Written from its documentation and from BIP173 and BIP350; a text is its list of characters. Errors are not distinguished.
* `MBip152.v`: Compact blocks: p2p/src/bip152.rs. usize has 64 bits; overflow checks are on. Formatting of short ids and the error texts are not modelled.
* `MBip158.v`: Compact block filters: bitcoin/src/bip158.rs. usize has 64 bits; overflow checks are on. Writers are vectors and readers slices, so the only reading error is the end of the data.
* `MBip32.v`: BIP32 child numbers, derivation paths and extended keys: key_expression/src/bip32.rs. Elliptic curve points are libsecp256k1's: they are a parameter (record `ecurve`); secret keys are numbers. Not modelled: the hexadecimal, octal and binary forms of child numbers, format widths, serde, Debug.
* `MBlockExt.v`: Checked blocks: bitcoin/src/blockdata/block.rs (sizes, weight, the height of BIP34) and the version bits of primitives/src/block.rs. `validate`, `new_checked`'s work, is in MMerkle.v; `validate_pow`, `target`, `work` and `difficulty` of headers are in MPow.v. The floating point difficulty is not modelled.
* `MBridge.v`: The errors of the io crate and its adapters from and to the standard library's traits: io/src/error.rs, io/src/bridge.rs, and the provided methods read_exact and write_all of io/src/lib.rs:82-92, 370-380. The standard library's error (std::io::error::Repr), its `kind`, `into_inner`, `new` and `From<ErrorKind>`, and its provided methods read_exact and write_all are modelled here too, from its documentation and source; they are not part of this repository.
* `MCalc.v`: Model of the operators between amounts, signed amounts, fee rates and weights, plain or wrapped in NumOpResult: units/src/result.rs (methods and generic operators), units/src/amount/result.rs, units/src/fee.rs, units/src/fee_rate/mod.rs, units/src/weight.rs and the assignment operators of units/src/internal_macros.rs. Numbers are the inner integers of the types, as in MAmount. The operators taking references forward to these (internal_macros.rs:12-69) and are not modelled apart. Plain u64 arithmetic panics on overflow, as with overflow checks on.
* `MChaCha.v`: Model of the chacha20_poly1305 crate: chacha20_poly1305/src/{lib,chacha20,poly1305}.rs. The `chacha20_poly1305_fuzz` configuration is not modelled. Fixed-size arrays are lists; loops with a constant bound over them are written out.
* `MChain.v`: How chains of operators run through the NumOpResult overloads (model side).
* `MDebug.v`: Debug output of the iterator over a serialised taproot signature: crypto/src/taproot.rs (with the hex feature). Simplified: the plain form `{:?}` only, not the many-line form `{:#?}`.
* `MDec.v`: Model of the push decoders of the consensus_encoding crate. Files: consensus_encoding/src/compact_size.rs, consensus_encoding/src/decode/decoders.rs, consensus_encoding/src/decode/mod.rs, include/decoder_newtype.rs.
* `MDiff.v`: The difficulty as a floating point number: bitcoin/src/pow.rs:105-115 and :141-144, bitcoin/src/blockdata/block.rs:59-61. The division of two f64 is the one of the processor: IEEE 754, to nearest with ties to even.
* `MEnc.v`: Model of the encoders of the consensus_encoding crate, and of the `encoder()` of the primitives. Files: consensus_encoding/src/encode/{encoders,iter,mod}.rs, primitives/src/{transaction,block,witness}.rs.
* `MEncHash.v`: Hashing what an encoder gives, without building the bytes: hashes/src/lib.rs:178-247; the byte counters of the engines.
* `MFilterReader.v`: Compact block filters matched from any reader: bitcoin/src/bip158.rs:181-303, 391-455. MBip158.v has the same functions reading from a slice. `f` is fuel for the loops of the io crate and for the number of ones in a code; None means that it, or a loop's own fuel, ran out. The state the reader is left in is not part of the answers of match_any and match_all.
* `MFilterWriter.v`: Compact block filters written to any writer: bitcoin/src/bip158.rs:317-390, 456-500. MBip158.v has the same functions writing to a vector. `f` is fuel for the loops of the io crate; None means that it, or a loop's own fuel, ran out. The counts returned are not bounded by usize.
* `MFloat.v`: Amounts and floating point: units/src/amount/unsigned.rs:158-160, 241-243, 259, 270-279, 288-307 and signed.rs:168-170, 246-248, 259-280, 296, 307-311, and the serde module as_btc of units/src/amount/serde.rs:228-248. The standard library's conversions between decimal text and f64 are external. `parse_f64` is the correctly rounded reading, on plain decimal texts only (no exponent, "inf" or "nan"; the code reads only texts it has written itself). The writing, `f64::to_string`, is a parameter.
* `MForms.v`: Ready-made spending forms: bitcoin/src/blockdata/witness.rs:29-72 (p2wpkh, p2wsh, p2tr_key_spend, push_p2tr_script_spend, push_ecdsa_signature), bitcoin/src/blockdata/script/owned.rs:132-148 (p2sh_p2wpkh, p2sh_p2wsh), script/borrowed.rs:144-298 (to_p2sh, to_p2wsh, tapscript_leaf_hash, to_p2tr, p2pk_public_key, is_standard_op_return, is_provably_unspendable), script/builder.rs:92-132 (push_key, push_x_only_key, push_lock_time, push_relative_lock_time, push_sequence) and bitcoin/src/policy.rs:50-53. Hashes and curves are parameters. `AsRef<`u8`>` arguments are their bytes.
* `MHash.v`: The buffering shared by the hash engines: hashes/src/internal_macros.rs `impl_engine_input!` and the `from_engine`/`finalize` functions of the sha256, sha512, sha1, ripemd160 and sha3_256 modules. A block compression function `comp` on a state of type `St` is a parameter here.
* `MHash2.v`: SHA-1, RIPEMD-160, SHA3-256 and hash160: hashes/src/sha1/, hashes/src/ripemd160/, hashes/src/sha3_256/, hashes/src/hash160/.
* `MHex.v`: Hexadecimal forms of encodable values: primitives/src/hex_codec.rs, the string driver of consensus_encoding/src/decode/mod.rs and the types that use them (transaction.rs, block.rs, witness.rs, script/owned.rs and script/borrowed.rs of primitives). A formatter is its options; writing to it is modelled as the text written, so failures of the underlying writer are not. The bytes an encoder yields are those of MTx.v and MWitness.v (C04 proves that byte iteration yields them).
* `MHmac.v`: The engines as one interface (trait HashEngine: hashes/src/lib.rs:168-200), HMAC (hashes/src/hmac/mod.rs), HKDF (hashes/src/hkdf/mod.rs) and the constant-time comparison (hashes/src/cmp.rs).
* `MIo.v`: The io crate: io/src/lib.rs and io/src/hash.rs. usize has 64 bits; a read into a buffer of n bytes returns the bytes put at its start. A reader or writer is a state with its operations; the drivers that may run for ever with a reader that keeps being interrupted have fuel, and give None when it runs out.
* `MIoDrive.v`: The drivers of the io crate between encoders or decoders and its readers and writers: io/src/lib.rs:456-649. usize has 64 bits; loops that a reader or writer can keep going for ever have fuel, and give None when it runs out.
* `MKey.v`: Keys: crypto/src/key.rs. Curve arithmetic is libsecp256k1's: it is a parameter (record `kcurve`); secret keys are numbers. The hex crate is a dependency, not in /repo. A text is its list of characters. Not modelled: generate, signing and verification, Keypair, serde, Debug, non_secure_erase.
* `MLock.v`: Lock times, sequences, heights and median times, block locators.
* `MLockErr.v`: What the errors of lock times say: Display of units/src/locktime/relative/error.rs and units/src/locktime/absolute/error.rs. The errors themselves are MLock.v's; the wrappers that put "blocks", "time", "satisfaction" or "incompatible" in front are not modelled.
* `MMerkle.v`: Model of the Merkle root algorithms and of block validation. Files: primitives/src/merkle_tree.rs, primitives/src/block.rs.
* `MMessage.v`: Signed messages: bitcoin/src/sign_message.rs. Recoverable signatures are libsecp256k1's: they are a parameter (record `rcurve`). The base64 crate is a dependency, not in /repo: its standard engine (RFC 4648 alphabet, padding required, no stray bits) is modelled from its documentation. Not modelled: Debug and the error texts.
* `MNetwork.v`: Networks: network/src/lib.rs, bitcoin/src/network/mod.rs, p2p/src/lib.rs (Magic), p2p/src/network_ext.rs and the genesis blocks of bitcoin/src/blockdata/constants.rs. `network` is MPow's: TestnetVersion has no other variants inside this repository, so the catch-all arms for future versions are not modelled, nor are serde and Debug.
* `MOrd.v`: Model of the comparison operators of transactions, blocks, witnesses, serialized signatures and script trees. Slices, vectors and byte arrays compare lexicographically (core); derived orders compare the fields one after the other. `core::hash::Hash` is not modelled, except for which value NodeInfo feeds it.
* `MP2p.v`: Payloads of the peer-to-peer messages: p2p/src/{lib,address,message,message_network,message_blockdata,message_bloom, message_compact_blocks,message_erlay,message_filter,bip434}.rs. An encoder is given by the bytes it produces, in order (see C04 for the chunks). Not modelled: Debug, Display and Arbitrary, the texts of the errors, sockets.
* `MP2pMsg.v`: Peer-to-peer messages and their two transports: p2p/src/message.rs. `sha256d` is the hash of the checksum (hashes/src/sha256d, modelled in MHash).
* `MPmt.v`: Model of partial Merkle trees and merkle blocks. File: p2p/src/merkle_tree.rs.
* `MPow.v`: Proof of work: units/src/pow.rs, bitcoin/src/pow.rs, bitcoin/src/network/params.rs. `Target` and `Work` wrap a U256; `CompactTarget` wraps a u32.
* `MPredict.v`: Ready-made weight predictions: bitcoin/src/blockdata/transaction.rs:751-809 (the constants) and 842-888 (ground signatures). The subtraction of usize is checked, as in const contexts and debug builds.
* `MPush.v`: Model of PushBytes and PushBytesBuf (primitives/src/script/push_bytes.rs) on a 64-bit processor: a buffer is the bytes of its vector. Capacity is not modelled.
* `MQuery.v`: Small queries: the out-of-range error of amounts (units/src/amount/error.rs:120-185), transaction versions (primitives/src/transaction.rs:1164-1197) and median-time intervals (units/src/block.rs:420-455).
* `MRadix.v`: Hexadecimal, octal and binary forms of BIP32 child numbers: key_expression/src/bip32.rs:317-373. Width, fill and precision of the formatter are not modelled.
* `MScript.v`: Model of script bytes: the instruction iterators, the builder, script integers, script recognition and signature-operation counting. Sources: bitcoin/src/blockdata/script/{instruction,mod,borrowed,owned,builder,push_bytes}.rs, bitcoin/src/blockdata/opcodes.rs, internals/src/script.rs, primitives/src/script/{owned,borrowed,builder,push_bytes,mod}.rs, primitives/src/witness_version.rs. A script is its bytes; an opcode is its byte. The marker type parameter of Script/ScriptBuf has no runtime content and is dropped.
* `MSerde.v`: The serde implementations: what each type hands to a format and what it asks a format for. A serializer receives a value of serde's data model (`sval`). A Deserialize implementation is the call it makes on the deserializer together with its visitor (`req`). The two kinds of format the crates of /repo are tested with (serde_json / serde_test and bincode 1 with fixed-width integers) are external; their reading is modelled by `self` and `compact`, their writing by the data model itself and by `flat`. Errors of formats are one value (`None`); size hints have no effect on results.
* `MSerde2.v`: The serde implementations of text types, keys, numbers, lock times, amounts and fee rates, over the data model of MSerde.v. An amount is its number of satoshis, a fee rate its satoshis per million virtual bytes. as_btc (floating point) is in MFloat.v; the shape of its optional form is that of as_str.
* `MServices.v`: The operators of service flags: p2p/src/lib.rs. Flags are their u64.
* `MSha2.v`: SHA-256, SHA-512, SHA-384 and SHA-512/256: hashes/src/sha256/, hashes/src/sha512/, hashes/src/sha384/, hashes/src/sha512_256/, hashes/src/sha256d/ and hashes/src/sha256t/. The portable code is here; the SHA-NI, SSE4.1, AVX2 and ARM versions are in MSimd.v. The tables of rounds are transcribed line by line from the `round!` invocations.
* `MSig.v`: Signatures with their sighash types: crypto/src/ecdsa.rs and crypto/src/taproot.rs. The DER encoding of an ECDSA signature is libsecp256k1's: it is a parameter. A Schnorr signature is its 64 bytes. Not modelled: Debug, serde, the comparison and borrowing traits of the serialised forms (they all go through the bytes).
* `MSigWriter.v`: The signing data written to any writer: bitcoin/src/crypto/sighash.rs:353-481, 562-615, 687-789. MSighash.v has the same functions writing to a hash engine. `f` is fuel for the loops of the io crate; None means it ran out.
* `MSighash.v`: Model of bitcoin/src/crypto/sighash.rs and crypto/src/sighash.rs: the data signed by legacy, segwit v0 and taproot signatures, their hashes and the `SighashCache`. The writer is a hash engine or a vector, which never fails: it is modelled by the bytes written. SHA-256 is the parameter `H` (its engine is the subject of C27; the tagged engine starts from the midstate of the tag, also C27). Signing itself is not modelled.
* `MSign.v`: Key pairs, tweaking of secret keys and signing: crypto/src/key.rs, taproot_primitives/src/lib.rs:416-440, bitcoin/src/crypto/sighash.rs:125-155. libsecp256k1 is a dependency, not in /repo: it is modelled after its documentation over an abstract group (record `group`, the laws are in SSign.v), with the nonce of a signature chosen by an arbitrary function. Secret keys are numbers. Not modelled: generate, erasing of memory, Debug, Keypair's own text and serde forms (libsecp256k1's).
* `MSimd.v`: The accelerated SHA-256 code: hashes/src/sha256/crypto/x86_shani.rs, arm_sha2.rs, sse41.rs, avx2.rs, and the choice between them and the portable code in hashes/src/sha256/crypto/mod.rs:306-476. The processor's vector instructions are modelled from the manufacturers' published pseudo-code (Intel intrinsics guide, ARM architecture reference manual); the programs are lists of instructions transcribed line by line from the source. Nested calls are flattened through the register "_". A pointer read or write outside the slice it comes from, a read of a variable that was not assigned and an instruction the processor does not have (all undefined behaviour) are `Panic`.
* `MSip.v`: Model of SipHash-2-4: hashes/src/siphash24/mod.rs. The `unsafe` unchecked reads are modelled with the checks of their debug assertions, which panic; that they never fire is part of the theorems.
* `MSocket.v`: Network addresses and socket addresses: p2p/src/address.rs:44-78, 112-119, 242-302, 574-600. Of std::net: an Ipv4Addr is its 4 octets, an Ipv6Addr its 8 segments; to_ipv6_mapped, to_ipv4 and segments are those of std.
* `MSpend.v`: Spending and creating outputs: the effective value of an output and outputs at the dust limit.
* `MStream.v`: Handing the chunks of an encoder straight to a decoder: fuzz/src/lib.rs:41-56, the loop behind check_roundtrip (13-22) and check_script_roundtrip (28-38) that every target in fuzz/fuzz_targets/bitcoin/encoding_roundtrip runs. The encoder is any type `X` with its two methods, given as `current_chunk` and `advance`.
* `MTaproot.v`: Model of bitcoin/src/taproot/mod.rs, bitcoin/src/taproot/merkle_branch/ and taproot_primitives/src/lib.rs: script trees, their builder, spend info and control blocks. SHA-256 is the parameter `H`. Keys and point arithmetic (libsecp256k1) are the parameter `C`; key pairs and signing are not modelled. Writers are vectors, which never fail. A hash is a byte list.
* `MText.v`: Text: strings, core's integer printing and parsing, units/src/parse_int.rs, the text of the unit types, hash and outpoint text. A `str` is the list of its Unicode scalar values; `str_len` is its length in UTF-8 bytes (what Rust's `len` returns).
* `MTx.v`: Model of primitives/src/transaction.rs (types, encoding, TransactionDecoder, transaction ids) and of the codecs of the unit types it contains.
* `MTxSize.v`: Model of the size and weight computations of bitcoin/src/blockdata/transaction.rs. All sums of usize values there have non-negative terms, so a partial sum overflows exactly when the whole does: the model checks the whole (`usz`).
* `MU256.v`: include/u256.rs: 256-bit unsigned integers in two 128-bit limbs. Panics (overflow checks, debug assertions, index out of bounds) are kept.
* `MVerify.v`: Transaction verification: bitcoin/src/consensus_validation.rs. libbitcoinconsensus and its error type are parameters (external C++ code): `consensus script amount tx index flags` is bitcoinconsensus::verify_with_flags with no spent outputs given; so is the flag constant VERIFY_ALL_PRE_TAPROOT of that crate. The closure `spent` is FnMut: a function of its own state.
* `MView.v`: Model of the slice and array helpers of internals (internals/src/slice.rs, internals/src/array.rs). Memory is a list of items; a slice is a view on it, a start and a length, so that the pointer casts of `from_raw_parts` can be told apart from what they point at. Const parameters are arguments: a value the compile-time assertions reject is `None` ("does not compile").
* `MWitVer.v`: Conversions of witness versions: primitives/src/witness_version.rs and bitcoin/src/blockdata/script/witness_version.rs. A version is its number 0..16, an opcode its byte (as in MScript.v, whose `version_to_opcode` is the conversion back to an opcode). Hexadecimal, octal and binary forms are those of the number (MRadix.v).
* `MWitness.v`: Model of primitives/src/witness.rs: the `Witness` type, its accessors, encoder and decoder. Debug assertions and overflow checks are on (they appear as `Panic`). `u32::to_ne_bytes` is taken to be little endian.
* `MWitness2.v`: More of primitives/src/witness.rs, and the taproot accessors of bitcoin/src/blockdata/witness.rs.

## What is not modelled

* the vector instructions themselves (their meaning in MSimd.v is from the manuals), fuzzing configurations, `non_secure_erase`, volatile accesses, constant-time behaviour,
  memory safety of the Rust itself (except the unchecked reads of SipHash and the uninitialised cells of ArrayVec, which are).
* Elliptic curve arithmetic, ECDSA signing and verification, DER: libsecp256k1 (parameters of the theorems; BIP-0340 signing is modelled over an abstract group in MSign.v).
* Debug, error texts (except those of I/O errors and of amounts out of range), `core::hash::Hash`, format widths and precisions (except those of amounts), the serde and arbitrary crates themselves (their data model and draws are modelled from their documentation).
* Short id formatting; sockets themselves.
* `Work::log2`, which hands the float of C70 to the platform's logarithm.
* The overflow of the capacity computation `len * 11` of base58 decoding (it needs an input of 2^60 bytes).

## Remarks on the code that are not theorems

* `is_implied_by` of absolute lock times answers false across units.
* The hex driver reports an unconsumed-data error instead of a hex error when the failing character follows a full 4096-byte flush.
* ByteVecDecoder: after a prefix error a later `end` gives an empty vector.
* ExactVecDecoder: elements above 1 MB give a batch of zero.
* The allocation-free Merkle root refuses more than 32767 leaves.
* SignedAmount may print "-0" with precision 0.
* Huffman construction with saturating weights may exceed the depth limit or be sub-optimal (documented).
* bech32: errors that change the length of a text (lost or added characters) are covered for version 0 only (C75_lengths).
* Regtest's BIP34/65/66 heights in Params are those of older Core releases.
* FeeRate::from_per_* is limited by the money supply of the intermediate amount, not by u64.


## Findings

Where the expected statement is false of the code, the negation is proved (suffix `_refuted`) next to the exact behaviour:

* `C02_one_push_refuted`: one call of push_bytes of a ByteVecDecoder that answers NeedsMore may leave bytes of the slice: it takes at most a million bytes a call (or what the allocator gave on top). A caller who drops the slice on NeedsMore loses them; callers must push the rest again, as the drivers do (C02_asks_when_dry, C02_splitting). Byte strings of at most a million bytes, integers and arrays take the whole slice (C02_one_push), and what is built of them (C02_one_push_built).
* `C02_ready_stays_refuted`: the trait Decoder documents that a decoder which has answered Ready goes on answering Ready without consuming bytes. CompactSizeDecoder and CompactSizeU64Decoder, and decoders that end in one (Offset), answer that they need more bytes when given an empty slice after Ready. All other decoders keep the promise (C02_ready_stays, C02_ready_stays_types), these with non-empty slices (C02_integers_ready).
* `C03_limit_ready_refuted`: the trait Decoder documents that read_limit returns 0 once the decoder is complete. WitnessDecoder, having decoded the last element (or an element count of zero), returns 1, the limit of the length decoder it would use for a next element. The drivers do not ask then, so nothing is over-read (C03_limit_sound); all other decoders return 0 (C03_limit_ready, C03_limit_ready_types).
* `C04_empty_first_chunk_refuted`: IterEncoder::new drops an item whose first chunk is empty.
* `C04_iter_len_refuted`: EncoderByteIter::len over-reports once the first part of an encoder has been read.
* `C04_nth_twice_refuted`: EncoderByteIter::nth panics when called again after it returned None.
* `C08_big_element_refuted`: with a witness element above 4,000,000 bytes the message hashed for the wtxid is not the encoding.
* `C08_no_inputs_refuted`: without inputs txid and wtxid hash different messages although there is no witness.
* `C10_streaming_exact_refuted`: the streaming Merkle root can let equal siblings through when the hash has a collision.
* `C11_ambiguous_refuted`: without the check for equal siblings a root does not bind the leaf list (CVE-2012-2459).
* `C12_big_element_refuted`: a witness element above 4,000,000 bytes can be stored but not read back: get gives None, to_vec nothing, comparison with any one-element list says equal, size is wrong.
* `C12_decode_panic_refuted`: decoding a witness of more than 4 GiB panics.
* `C12_huge_index_refuted`: Witness::get of an index of 2^62 or more overflows and panics.
* `C13_extend_hint_refuted`: what extend/from_iter writes depends on the size hint of the iterator.
* `C13_push_opcode_refuted`: push_opcode accepts data push opcodes, which swallow what is pushed later.
* `C15_write_min_refuted`: write_scriptint panics on i64::MIN.
* `C16_multisig_total_refuted`: is_multisig overflows its u8 counter on more than 255 pushes.
* `C18_needs_digit_refuted`: a text without a digit (".") parses as an amount.
* `C18_not_zero_refuted`: the text ".0" read in satoshi is refused with an error whose message says that the amount is less than 1 satoshi but not zero; it is zero, and "0.0" in satoshi and ".0" in bitcoin are accepted as zero. The position given is that of the dot, although it is documented to be that of the first digit that is too precise.
* `C18_rounded_refuted`: an amount printed with more decimals than its denomination has (1 BTC with nine decimals) is not read back: the parser refuses the extra zero as too precise, except in satoshi; and a negative amount that rounds to nothing prints as -0. With at most the decimals of the denomination, printing and reading rounds to the nearest (C18_rounded).
* `C19_fee_least_refuted`: the fee of a rate that is not a multiple of 1000 sat/MvB is not the least one: 1 sat/MvB on 1,000,000 wu is charged 1000 sat.
* `C20_max_time_refuted`: a time lock of u32::MAX is never satisfied.
* `C21_message_refuted`: the message of the error that a relative lock by time gives when asked about heights says that a lock by height was tried with seconds (and the other way round for is_satisfied_by_time); the number it calls seconds counts intervals of 512 seconds. Absolute locks say it right (C20_message).
* `C22_parse_exact_refuted`: decimal U256 text may hold a plus sign at the start of each 38-character piece.
* `C23_decode_refuted`: nBits with the sign bit, which consensus reads as negative, give a target that is not zero.
* `C24_work_refuted`: the work of target one is 2^256 - 1, although the exact value 2^255 fits.
* `C25_max_threshold_refuted`: four times the target is taken modulo 2^256 (targets of regtest).
* `C25_min_threshold_refuted`: the compact form of a retarget by the full factor can lie below a quarter of the old target.
* `C25_next_time_refuted`: a header time within twenty minutes of u32::MAX makes the next-work computation panic.
* `C26_encode_never_panics_refuted`: encoding with the fixed-size buffer panics on ninety bytes 0xff.
* `C27_finalize_total_refuted`: an engine made from a midstate with a huge byte count cannot be finalized.
* `C28_expand_max_refuted`: expanding HKDF to the full 255 blocks panics (u8 counter).
* `C28_hmac_total_refuted`: HMAC with SHA3-256 panics: its block exceeds the pads.
* `C29_last_byte_refuted`: the last byte of the 2^38-byte key stream cannot be used.
* `C29_max_plaintext_refuted`: encrypting a plaintext of the maximal size of RFC 8439 panics.
* `C30_bits_reuse_refuted`: BitStreamWriter cannot be used after a write error: the byte that could not be written stays in its buffer with the offset at eight, and every further write of at least one bit shifts by 64 and panics (C30_bits_broken; without overflow checks it corrupts the buffered byte). Only flush, which tries that byte again, works (C30_bits_flush_again).
* `C30_golomb_parameter_refuted`: a Golomb parameter of 64 or more overflows a shift.
* `C30_match_total_refuted`: matching panics on a filter that announces 2^64 - 1 elements.
* `C31_count_refuted`: the number of transactions of a partial Merkle tree is not authenticated.
* `C31_one_message_refuted`: A Merkle proof has more than one encoding: the unused bits of the last flag byte are neither checked nor normalised, so for every block of one transaction two different merkleblock messages decode to two unequal values that prove the same thing.
* `C31_size_refuted`: the documentation of PartialMerkleTree gives a hard guarantee: for N hashes at most 2N-1 flag bits and 10 + ceil(32.25 N) bytes. A node with a single child, which every tree over a number of transactions that is no power of two has, takes a bit of its own: a block of 1025 transactions, all matched, takes 2059 bits and 33068 bytes, one more than promised. The bounds on N itself hold, and the bits exceed 2N-1 by at most the height of the tree (C31_counts), so the size is at most 12 + ceil(32.25 N) for up to 16666 transactions (C31_size).
* `C32_decoded_positions_refuted`: decoding does not check that prefilled positions lie within the block.
* `C32_index_refuted`: with more than 2^16 transactions a prefilled index is cut to 16 bits.
* `C32_prefill_refused_refuted`: a prefill list longer than the block panics instead of giving the documented error.
* `C32_unsorted_total_refuted`: a repeated index in the prefill list panics.
* `C33_addr_v2_iterator_refuted`: the byte iterator of an AddrV2 encoder never returns when asked again after its end.
* `C33_addr_v2_round_trip_refuted`: AddrV2 values outside of the canonical ones are written to bytes that are read differently.
* `C33_fee_filter_refuted`: a fee filter of 1 sat/MvB comes back as 1000 sat/MvB.
* `C33_inventory_refuted`: Inventory::Unknown with a known number comes back as the known variant.
* `C33_no_relay_refuted`: a version message without its last byte, the relay flag, which BIP37 made optional, is refused: the decoder needs the byte.
* `C33_relay_refuted`: a version message whose relay byte is neither 0 nor 1 is accepted and written back differently: reading is not exact.
* `C33_signed_alert_refuted`: an alert as nodes sent it, the text of the alert followed by a signature, is refused whatever the text and the signature: the decoder takes the text for the whole payload. final_alert() is accordingly written without a signature.
* `C33_unknown_refuted`: an unknown message with a known name comes back as another message.
* `C33_v2_long_form_refuted`: V2 messages whose name is written out although it has a short form are not recognised.
* `C33_v2_unknown_refuted`: the payload of an unknown V2 message is lost.
* `C33_xor_refuted`: the operator ^ on service flags is not the exclusive or: it removes the flags of its right side, so NONE ^ WITNESS is NONE and the order of the two sides matters. It is the exclusive or exactly when the left side has all the flags of the right (C33_service_operators).
* `C34_builder_accepts_refuted`: a leaf can be added below a finished tree; the builder then never finishes.
* `C34_round_trip_refuted`: a control block made with odd internal key parity does not come back equal.
* `C34_serde_hidden_refuted`: serializing a node drops its hidden parts.
* `C35_round_trip_refuted`: an extended key of depth zero with a fingerprint or child number encodes to bytes that decoding refuses.
* `C36_predict_no_inputs_refuted`: weight prediction without inputs misses the marker and flag.
* `C36_prediction_overflow_refuted`: InputWeightPrediction::new panics where from_slice saturates.
* `C37_hex256_plus_refuted`: U256 hexadecimal accepts a plus sign before its last 31 digits.
* `C39_cache_refuted`: a SighashCache whose inputs are modified afterwards answers with stale hashes.
* `C39_legacy_position_refuted`: A legacy signature hash with an empty script code and SIGHASH_ALL does not determine the input it was computed for: every input of the transaction has the same digest, because the code is put in the signed input's place and all the other scripts are blanked. With a non-empty script code it does (C39_legacy_position).
* `C39_refused_writes_refuted`: a segwit v0 (or taproot) request that is refused, for example because the index has no input, has already written part of the signing data to the writer; a legacy request checks first and leaves the writer untouched (C39_writer_legacy).
* `C39_taproot_index_refuted`: the taproot input index is not checked without ANYONECANPAY, and only its low 32 bits are signed.
* `C41_accurate_additive_refuted`: the accurate sigop count is not additive (OP_1 before OP_CHECKMULTISIG).
* `C41_p2sh_push_only_refuted`: P2SH sigop counting does not require a push-only input script, where Core does.
* `C43_hash_retries_refuted`: the hash reader gives up at an interruption, unlike read_exact.
* `C45_big_element_refuted`: taproot accessors panic on a witness with an element above 4,000,000 bytes.
* `C47_canonical_refuted`: the fuzz target parse_address asserts that an address displays as the text it was parsed from; a segwit address written in upper case, as in QR codes, displays in lower case (C47_canonical says when the two agree).
* `C47_matches_refuted`: matches_script_pubkey ignores the witness version: an address can match the script of another one.
* `C47_related_refuted`: is_related_to_pubkey holds of addresses the key cannot spend.
* `C48_effective_value_refuted`: effective_value panics on a prediction too large for 32 bits.
* `C50_iterator_debug_refuted`: IntoIter of a serialized taproot signature derives Debug, and next_back shortens the stored signature, whose Debug asserts a length of 64 or 65 bytes: printing the iterator with {:?} after one next_back (two if a sighash byte is present) panics.
* `C51_rpc_port_refuted`: the default RPC port of regtest is 18442, Core's is 18443.
* `C52_read_exact_refuted`: header bytes above 34 are accepted: every signature has other serialisations.
* `C53_truncated_refuted`: the text of a cut-off script does not determine it, and the notice is glued to the word before it.
* `C55_precision_refuted`: a precision of 0 or 1 with the alternate form still writes the whole prefix.
* `C55_width_refuted`: formatting in hex with a width and a precision pads as if the precision had cut nothing, so the width is not reached.
* `C56_outpoint_sequence_refuted`: an out point in a format for machines that stores structures as sequences and keeps kinds (MessagePack's default) is never read back: written as a sequence and a tuple of numbers, asked for as bytes and a u32.
* `C56_tree_compact_refuted`: NodeInfo and TapTree are not read back from a compact format such as bincode: the depth is written as a usize (8 bytes) and read as a u8. Usually reading fails; with an empty script another tree comes back without an error.
* `C57_amount_str_opt_refuted`: amount::serde::as_str::opt writes Some(a) as a bare string, without serialize_some, but reads with deserialize_option: no amount is read back by formats that mark optional values (serde_test, bincode, ...). as_btc::opt has the same shape.
* `C57_fee_refuted`: The serde forms of fee rates round to the unit, so a rate that is not a multiple of it is not read back; rates above 21 million bitcoin per million virtual bytes are written but refused when read.
* `C57_u256_plus_refuted`: The 64-character human-readable form of U256 (Target, Work) is also accepted with a plus sign in place of a digit at the start of either half, since the halves are read with the integer parser of the standard library.
* `C57_xonly_parity_refuted`: serde of XOnlyPublicKey writes the 32 bytes without the parity and always reads an even key: a key with odd parity does not come back as the same value.
* `C61_annex_refuted`: push_p2tr_script_spend accepts an annex that does not begin with 0x50: the witness then no longer unlocks the output, and the accessors read back neither the script nor the annex.
* `C62_minus_zero_refuted`: Amount::from_float_in(-0.0, ..) and from_btc(-0.0) are refused as negative although -0.0 is zero and SignedAmount accepts it.
* `C63_high_s_refuted`: P2WPKH_MAX and the other *_MAX predictions are documented as for the largest possible DER-encoded signature, but expect 72 bytes; a signature with S in the upper half, which ecdsa::Signature reads and writes, can take 73 and the weight is then underestimated (such signatures are non-standard).
* `C64_loopback_refuted`: Address::socket_addr uses Ipv6Addr::to_ipv4, which also converts IPv4-compatible addresses: an Address made from the IPv6 loopback [::1]:8333 gives the IPv4 socket address 0.0.0.1:8333 (and [::] gives 0.0.0.0).
* `C65_accumulate_refuted`: += and -= on NumOpResult<Weight> and NumOpResult<FeeRate> use the plain u64 operators of the inner type: an accumulator of results that overflows panics (or wraps, without overflow checks) instead of becoming an error, unlike NumOpResult<Amount>.
* `C65_cause_refuted`: NumOpError::operation and is_div_by_zero describe the last operator, not the cause: adding or subtracting two NumOpResults (and += or -= on one) replaces the error of a failed operand by Add or Sub. (amount / 0) + Valid(5) reports an overflow in an addition, although the only thing wrong was a division by zero.
* `C66_node_refuted`: taproot NodeInfo breaks the contract between Ord and Eq: == and Hash look only at the node hash, while cmp also compares the leaves and the hidden flag. For every script, NodeInfo::new_leaf_with_ver and NodeInfo::new_hidden_node of the same leaf hash are == but compare Greater; TaprootBuilder derives all three traits from it. A BTreeSet keeps both values where a HashSet keeps one.
* `C66_witness_refuted`: Witness derives Ord from its internal buffer, so witnesses are not ordered as the lists of their elements: the stack [[1,0]] comes before [[2]] as a list of byte strings, but Witness::cmp says Greater because the length prefixes are compared first.
* `C68_get_array_refuted`: SliceExt::get_array adds the offset and the array length before looking at the slice, so an offset within ARRAY_LEN of usize::MAX panics (or wraps, without overflow checks) instead of returning None as documented. The only caller, the witness index lookup, stays below.
* `C69_bytes_refuted`: UserAgent::new and add_client limit the number of characters, as they document, not of bytes: 256 accented letters make a user agent of up to 1024 bytes, while Bitcoin Core refuses a version message whose user agent has more than 256 bytes.
* `C69_comment_refuted`: UserAgentVersion::push_comment refuses the four BIP14 separators but not the semicolon it puts between comments, so the one comment 'Android; ARM' and the two comments 'Android', 'ARM' give the same user agent.
* `C69_date_refuted`: ClientSoftwareVersion::Date prints year, month and day with no separator and takes any u8 as month and day, so the dates 2011-1-28 and 201-101-28 give the same user agent. With months and days below 100 there is no ambiguity (C69_read_back).
* `C71_block_number_refuted`: The Arbitrary implementation of BlockHeight, BlockHeightInterval, BlockMtp and BlockMtpInterval draws its choice from 0..=2 where 0, 1 and 2 are the fixed values zero, MIN and MAX, so the arm that draws an arbitrary number is never reached: fuzzing only ever sees 0 and u32::MAX.
* `C71_inventory_refuted`: Arbitrary for Inventory can give Inventory::Unknown with the type number of a known variant; it encodes to bytes that decode to the known variant.
* `C71_message_kinds_refuted`: the generator of network messages never makes sendtxrcncl and feature messages, and never a version message that asks for relaying (C71_message_kinds), although the decoder accepts them: fuzz targets built on it do not reach their code.
* `C71_message_refuted`: the generator of network messages makes unknown messages under any name, also a known one; such a message is read back as the known message (or refused), so a fuzz target that writes and reads generated messages would fail on it. C71_message: every other generated message within the limits is read back as it was, but for the two next cases and mislabelled inventory (C71_inventory_refuted).
* `C71_prediction_refuted`: Arbitrary for InputWeightPrediction passes drawn lengths to a constructor that adds without care, so that a draw of large lengths panics (overflow checks on).
* `C71_request_refuted`: a generated getblocktxn request can hold any usize as an offset; the decoder refuses offsets above four million, so what the encoder writes is not read back.
* `C71_tap_tree_refuted`: Arbitrary for TapTree wraps any NodeInfo, including one with hidden nodes or with no leaves and with a hash unrelated to its leaves; TapTree::try_from(NodeInfo) would refuse it.
* `C71_user_agent_refuted`: Arbitrary for UserAgent calls String::truncate with a limit counted in characters, so a name with multi-byte characters that straddles the limit panics (for example 200 times e-acute and version 1.0.10). Exactly the names cut inside a character panic, so ASCII never does (C71_user_agent_panic).
* `C71_xpub_refuted`: Arbitrary for Xpub draws depth, parent fingerprint and child number independently (Xpriv does not), so it can give a depth 0 key with a parent fingerprint; encoding it and decoding the bytes fails with NonZeroParentFingerprintForMasterKey.
* `C72_kind_refuted`: Kinds of std::io::Error that this library lacks (OutOfMemory, NetworkUnreachable, StorageFull, ...) all become Other and stay Other when converted back.
* `C72_os_refuted`: From<std::io::Error> for Error keeps the kind and a boxed error only: an error with an OS code loses it (raw_os_error is None after the round trip, and the text names only the kind).
* `C72_write_zero_refuted`: The provided Write::write_all reports ErrorKind::UnexpectedEof when the writer takes no bytes, where the standard library reports WriteZero, a kind that this library also has. So the same full writer gives two different kinds, depending on whether write_all is forwarded to std or provided here.
* `C73_count_refuted`: The byte counter of a hash engine, documented as the number of bytes already input, is 64 (or the block size) and not 0 on a new tagged or HMAC engine: it also counts the tag block and the padded key.
* `C74_private_refuted`: Keypair::from_private_key followed by to_private_key turns an uncompressed private key into a compressed one: the flag is lost, so the legacy public key and address of the result differ.
* `C75_four_errors_refuted`: Four wrong characters can turn one valid segwit address into another: bc1qrp33g0q5c5txsp9arysrx4k6zdkfs4nce4xj0gdcccefvpysxf3qccfmv3 (P2WSH, a test vector of BIP173) and bc1prp33g0q5c5txxp9arysrx2k6zdkfs4nce4xj0gdccpefvpysxf3qccfmv3 (P2TR) differ in four places and both parse. The version character is one of them, and version 0 and the later ones use different checksum constants (BIP350). Up to three are always found (C75_three_errors), and four if the version stays on its side (C75_four_errors).
* `C77_message_refuted`: the message of the out-of-range error says that the amount is greater than u64::MAX (or beyond the limits of i64), which no refused value is.
* `C77_valid_range_refuted`: valid_range() of the out-of-range error is documented to give the allowed values of the type that was parsed; it gives the range of the machine integer, and every refused value lies inside it.
