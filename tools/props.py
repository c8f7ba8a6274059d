#!/usr/bin/env python3
"""Regenerates /verif/properties.jsonl (one JSON object per line)."""
import json
P=[]
def p(title, statement, quantifier, why, anchors):
    P.append(dict(id="C%02d"%(len(P)+1), title=title, statement=statement, quantifier=quantifier, why_tests_cant=why, anchors=anchors))
H="include/nil/crypto3/hash/"
p("One-shot Merkle-Damgard digest equals the published padding-and-chaining definition",
  "For every hash built on the Merkle-Damgard construction (MD4, MD5, SHA, SHA-1, SHA-2, RIPEMD, Tiger), hash<H>(message) is exactly: append the padding marker, the least number of zero bits, and the bit length in the hash's byte order so that the result is a whole number of blocks, run the compression function over the blocks from the IV, and serialise the first digest_bits bits of the state in the hash's byte order.",
  "every message of fewer than 2^64 bits, every compression function, IV, word size, block size and length-field size",
  "Known-answer tests touch a handful of lengths; the padding has boundary cases at every block offset and the claim is about all of them and all contents.",
  [H+"detail/merkle_damgard_construction.hpp:merkle_damgard_construction::digest", H+"detail/merkle_damgard_padding.hpp", H+"accumulators/hash.hpp:hash_impl", H+"detail/block_stream_processor.hpp"])
p("Chunking independence",
  "Feeding a message to an accumulator in any number of pieces with successive hash<H>(piece, acc) calls and then extracting gives the same digest as hashing the concatenation in one call, for the Merkle-Damgard, sponge and HAIFA constructions alike.",
  "every message, every way of cutting it into pieces (including empty pieces), every construction",
  "The number of ways to split a message is exponential; the cached-bits, filled and carry-over branches depend on the whole history of piece sizes.",
  [H+"accumulators/hash.hpp:hash_impl::process", H+"detail/block_stream_processor.hpp", H+"algorithm/hash.hpp"])
p("Element-width independence",
  "Hashing a range of 16-, 32- or 64-bit integers gives the digest of the octet string obtained by writing each integer as the machine stores it, on a little-endian machine least significant octet first, whatever the byte order of the hash; mixing element widths between calls is allowed.",
  "every sequence of ranges, each with its own element width dividing the word size",
  "Tests only pass octet ranges for most hashes.",
  [H+"detail/block_stream_processor.hpp:process_block", "docs/pack.md", "test/find_group_hash.cpp", "test/pedersen.cpp"])
p("Extraction is repeatable and does not disturb the accumulator (block hashes)",
  "Extracting the digest from an accumulator of a block hash any number of times, at any points between updates, never changes any later digest: each extraction returns the digest of exactly the bits fed so far.",
  "every interleaving of updates and extractions",
  "The property ranges over all histories of update and extract.",
  [H+"accumulators/hash.hpp:hash_impl::result"])
p("Uninitialised and stale memory never reaches a digest",
  "The digest depends only on the bits fed: not on the uninitialised contents of the accumulator's block cache, not on stale words left from earlier blocks, and not on the bits of a supplied block or word beyond the stated bit count.",
  "every initial memory content, every history of feeds",
  "Memory contents are not under a test's control; a test run sees one memory image.",
  [H+"accumulators/hash.hpp", H+"detail/merkle_damgard_padding.hpp", H+"detail/blake2b/blake2b_padding.hpp"])
p("Bit-exact block feeds",
  "acc(block, bits = n) appends exactly the first n bits (in the hash's bit order) of the block to the message, for any n from 1 to the block size, whatever was fed before by block feeds.",
  "every sequence of block feeds with arbitrary bit counts",
  "Block-straddling bit offsets: (block size)^2 combinations per step and unbounded histories.",
  [H+"accumulators/hash.hpp:hash_impl::process(block_type)"])
p("Word feeds append their bits",
  "acc(word, bits = n) appends exactly the first n bits of the word to the message, whatever was fed before.",
  "every sequence of word and block feeds",
  "The failure needs a word feed that ends on a block boundary followed by another feed; the shipped tests feed at most three words.",
  [H+"accumulators/hash.hpp:hash_impl::process(word_type)"])
p("The reported bit count is the hashed bit count",
  "The bit counter a hash accumulator carries (the bits_count feature it depends on) equals the number of message bits the hash has absorbed.",
  "every history of feeds, with or without an explicit bit count",
  "Tests never compare the two counters.",
  [H+"accumulators/bits_count.hpp:bits_count_impl", H+"accumulators/hash.hpp:resolve_type"])
p("Merkle-Damgard padding is injective",
  "Two different messages never produce the same padded block sequence, so any digest collision yields a collision of the compression function chain.",
  "every pair of messages of fewer than 2^64 bits",
  "Quantifies over all pairs of messages.",
  [H+"detail/merkle_damgard_padding.hpp", H+"detail/merkle_damgard_construction.hpp:append_length"])
p("Number of compression calls",
  "Extracting a digest after n message bits has run the compression function exactly ceil((n + 1 + length_bits) / block_bits) times, no data block being skipped or repeated.",
  "every message length, every chunking",
  "Must hold at every offset within a block and for every chunking.",
  [H+"detail/merkle_damgard_construction.hpp:digest", H+"accumulators/hash.hpp"])
p("Tiger uses its own padding marker",
  "Tiger<192> digests equal the published Tiger: 0x01 marker octet, zero octets, 64-bit little-endian bit length, the Tiger compression function, little-endian output.",
  "every octet string shorter than 2^61 octets",
  "Infinite input domain.",
  [H+"detail/tiger/tiger_padding.hpp", H+"tiger.hpp", H+"detail/tiger/tiger_functions.hpp"])
p("SHA-3 equals FIPS 202",
  "hash<sha3<n>> of an octet string is SHA3-n of FIPS 202 (sponge with Keccak-f[1600], capacity 2n, suffix 01, pad10*1, octets read least significant bit first).",
  "n in {224,256,384,512}, every octet string shorter than 2^61 octets, every chunking",
  "Infinite input domain; rate-boundary lengths are where padding code goes wrong.",
  [H+"sha3.hpp", H+"detail/sha3/sha3_padding.hpp", H+"detail/sponge_construction.hpp", H+"detail/sha3/sha3_functions.hpp", H+"detail/sha3/sha3_finalizer.hpp"])
p("Keccak equals the original Keccak submission",
  "hash<keccak_1600<n>> of an octet string is Keccak[r = 1600-2n, c = 2n] with plain pad10*1.",
  "n in {224,256,384,512}, every octet string shorter than 2^61 octets, every chunking",
  "Infinite input domain.",
  [H+"keccak.hpp", H+"detail/keccak/keccak_padding.hpp", H+"detail/keccak/keccak_finalizer.hpp"])
p("Sponge hashing of bit strings",
  "A message whose length is not a whole number of octets, fed with acc(block, bits = n), is padded with (suffix and) pad10*1 directly after its last bit, and different bit strings give different padded messages.",
  "every bit length and content",
  "The library's own bit-level test is commented out; the property ranges over all lengths modulo the rate.",
  [H+"detail/keccak/keccak_padding.hpp", H+"detail/sha3/sha3_padding.hpp", H+"detail/sponge_construction.hpp:digest"])
p("Generic Keccak-f[1600] equals the FIPS 202 step mappings",
  "The portable permutation equals 24 rounds of iota(chi(pi(rho(theta(A))))) as defined bit by bit in FIPS 202, including the round constants and rotation offsets obtained from their generating rules.",
  "every 1600-bit state",
  "2^1600 states.",
  [H+"detail/keccak/keccak_impl.hpp:permute", H+"detail/sha3/sha3_functions.hpp:permute"])
p("Keccak-f[1600] is a permutation",
  "Different 1600-bit states are always mapped to different states, and every state is reached.",
  "every pair of states",
  "Injectivity quantifies over pairs of states.",
  [H+"detail/keccak/keccak_impl.hpp:permute"])
p("The x86-64 assembly permutation equals the portable one",
  "On every state the inline assembly Keccak for x86-64 leaves the state array as the portable code does.",
  "every 1600-bit state",
  "A wrong register or rotation can show on states no test vector reaches, and the assembly is not built on other machines.",
  [H+"detail/keccak/keccak_x86_64_impl.hpp:permute"])
p("The ARMv8 assembly permutation equals the portable one",
  "On every state the inline assembly Keccak for ARMv8 leaves the state array as the portable code does.",
  "every 1600-bit state",
  "As above; CI does not run on ARM.",
  [H+"detail/keccak/keccak_armv8_impl.hpp:permute"])
p("The AVX2 permutation equals the portable one",
  "On every state the AVX2 Keccak leaves the state array as the portable code does.",
  "every 1600-bit state",
  "As above.",
  [H+"detail/keccak/keccak_avx2_impl.hpp:permute"])
p("The AVX-512 permutation equals the portable one",
  "On every state the AVX-512 Keccak leaves the state array as the portable code does.",
  "every 1600-bit state",
  "No test machine in the project has AVX-512; the path is never executed.",
  [H+"detail/keccak/keccak_avx512_impl.hpp:permute"])
p("BLAKE2b equals RFC 7693",
  "hash<blake2b<n>> of an octet string is unkeyed BLAKE2b-n of RFC 7693.",
  "n in {224,256,384,512} (any multiple of 8 up to 512), every octet string shorter than 2^61 octets",
  "Infinite input domain; the library's vectors contain no message whose length is a positive multiple of 128 octets.",
  [H+"blake2b.hpp", H+"detail/haifa_construction.hpp:digest", H+"detail/blake2b/blake2b_padding.hpp", H+"detail/blake2b/blake2b_functions.hpp"])
p("RIPEMD compression functions equal their definition",
  "For RIPEMD-128, -160, -256 and -320 the block compression equals the two-line definition of the RIPEMD specification (step function, word order tables, rotation tables, round constants, exchange of chaining variables between lines), so the whole hash equals RIPEMD-n.",
  "every chaining state and every block",
  "2^(state+block) inputs.",
  [H+"ripemd.hpp", H+"detail/ripemd/ripemd_functions.hpp", H+"detail/ripemd/ripemd_policy.hpp"])
p("Block-cipher compressors",
  "The Davies-Meyer, Matyas-Meyer-Oseas and Miyaguchi-Preneel compressors compute E_m(h)+h, E_h(m)+m and E_h(m)+m+h word by word modulo 2^w (or xor), leave the block unchanged, and Davies-Meyer with a fixed block is injective in nothing but E: the feed-forward is applied to every state word.",
  "every block cipher, state and block",
  "The cipher is a template parameter.",
  [H+"detail/davies_meyer_compressor.hpp", H+"detail/matyas_meyer_oseas_compressor.hpp", H+"detail/miyaguchi_preneel_compressor.hpp", H+"detail/state_adder.hpp"])
p("DigestInfo prefixes are well-formed DER for their digest",
  "For every hash that publishes pkcs_id, the prefix followed by a digest is a well-formed DER DigestInfo whose algorithm identifier is that hash's and whose octet string is that digest.",
  "every hash variant, every digest value",
  "Nothing in the test suite reads pkcs_id.",
  [H+"detail/sha2/sha2_policy.hpp:pkcs_id", H+"detail/sha3/sha3_policy.hpp:pkcs_id", H+"detail/ripemd/ripemd_policy.hpp:pkcs_id", H+"detail/md5/md5_policy.hpp", H+"detail/sha1/sha1_policy.hpp", H+"detail/tiger/tiger_policy.hpp"])
p("Compile-time power",
  "detail::pow(x, n) terminates and returns x to the n-th power (modulo the type's range).",
  "every x and n",
  "Unbounded exponents.",
  ["include/nil/crypto3/detail/static_pow.hpp:pow"])
p("strxor",
  "strxor(a, b, out) writes exactly the position-wise exclusive or of two equally long strings; applying it twice with the same second operand restores the first.",
  "every pair of equally long strings",
  "Unbounded lengths.",
  ["include/nil/crypto3/detail/strxor.hpp:strxor"])
p("expand_message_xmd equals RFC 9380",
  "The octets expand_message_xmd produces for a message fed in any pieces equal RFC 9380 section 5.3.1 for the underlying hash, for output lengths that are a multiple of the digest size; no octet is written outside the output buffer.",
  "every underlying hash, message, chunking, DST of 16..255 octets, output length",
  "Infinite domain.",
  [H+"detail/h2f/h2f_functions.hpp:expand_message_xmd"])
p("expand_message_xmd stays within its output buffer",
  "For every output length accepted by the static assertions, expand_message_xmd writes only inside the len_in_bytes-octet result.",
  "every accepted pair of output length and digest length",
  "Only multiples of the digest length are instantiated in tests.",
  [H+"detail/h2f/h2f_functions.hpp:process"])
p("hash-to-field equals RFC 9380",
  "The field elements h2f returns are OS2IP of consecutive L-octet groups of the expanded message reduced modulo p, coordinate by coordinate, so each coordinate lies in [0,p).",
  "every message, hash, count in {1,2}, extension degree in {1,2}",
  "Infinite domain.",
  [H+"h2f.hpp:process"])
p("Extraction is repeatable for hash-to-field, hash-to-curve and Pedersen",
  "Extracting twice from the same accumulator, or extracting and then continuing, behaves as for every other hash: the second extraction returns the same value.",
  "every history of updates and extractions",
  "Tests extract once.",
  [H+"accumulators/hash.hpp:hash_impl (specialisation)", H+"pedersen.hpp:pad_update", H+"detail/h2f/h2f_functions.hpp:process"])
p("The simplified SWU map always lands on the curve",
  "For every field element u, the point computed by the simplified SWU map satisfies y^2 = x^3 + A x + B, including the exceptional inputs, and its y has the sign of u.",
  "every field element u of every field in which the map's documented preconditions on A, B, Z hold",
  "The field has about 2^381 (2^762) elements, and the exceptional inputs are never sampled.",
  [H+"detail/h2c/h2c_functions.hpp:m2c_simple_swu"])
p("The isogeny maps are the RFC's isogenies to BLS12-381",
  "The 11-isogeny (G1) and 3-isogeny (G2) maps with the coefficient tables in the code send every affine point of the auxiliary curve that is not in the kernel to its image under the RFC's isogeny (the one with that kernel given by Velu's formulas, scaled by 11^-2, 11^-3, respectively (-3)^-2, (-3)^-3), a point of y^2 = x^3 + 4 (respectively 4(1+i)).",
  "every point of the auxiliary curves",
  "A wrong digit in one of some seventy 381-bit constants is only detected if all coefficients are exercised in an identity; points are about 2^381 many.",
  [H+"detail/h2c/h2c_functions.hpp:iso_map", H+"detail/h2c/h2c_suites.hpp"])
p("Pedersen hash equals the Zcash definition",
  "pedersen_to_point of a bit string is the sum over segments of [<M_i>] I_i of the Zcash protocol specification, with zero padding to a multiple of three bits, for any chunking of the bit string.",
  "every group, base-point generator and bit string",
  "Infinite domain.",
  [H+"pedersen.hpp:internal_accumulator_type", H+"detail/pedersen/lookup.hpp"])
p("Pedersen segment encoding is injective and non-zero",
  "Different segments of at most c chunks have different encodings modulo the group order, all non-zero, where c is the value computed by chunks_per_base_point; c is the largest admissible value.",
  "every modulus, every pair of segments",
  "2^189 segments.",
  [H+"detail/pedersen/basic_functions.hpp:chunks_per_base_point", H+"detail/pedersen/lookup.hpp"])
p("FindGroupHash returns the first valid candidate and terminates",
  "find_group_hash tries the one-octet counters 0,1,...,255 in order, returns the cofactor multiple of the first candidate that decodes to a curve point, and reports failure otherwise.",
  "every message and every decoding behaviour",
  "The failing case cannot be provoked by a test, and its symptom is non-termination.",
  [H+"find_group_hash.hpp:process"])
p("Poseidon sponge",
  "Absorbing field elements one by one, as a vector, through iterators or through a container, in any grouping, and squeezing gives the value of the sponge definition: groups of rate elements are chained through the last state element.",
  "every field, permutation, rate and element sequence, every grouping",
  "Infinite domain.",
  [H+"detail/poseidon/poseidon_sponge.hpp", H+"algorithm/hash.hpp"])
p("Poseidon hashes of different element sequences are only equal by a permutation collision",
  "Different element sequences are never mapped to the same sequence of permutation inputs.",
  "every pair of element sequences",
  "Quantifies over pairs; the failing pairs differ by trailing zero elements.",
  [H+"detail/poseidon/poseidon_sponge.hpp:absorb"])
p("Poseidon packing of integers",
  "Hashing a container of integers packs as many whole integers as fit into one field element, big-endian, and different containers give different element sequences.",
  "every container of 8-, 16-, 32- or 64-bit integers",
  "Quantifies over pairs of containers of any length.",
  [H+"algorithm/hash.hpp:absorb"])
p("Poseidon permutation is a permutation and multiplies by the published matrix",
  "Both round orders compute MDS * state (row-wise) and the permutation is a bijection of the state space whenever the S-box power map is a bijection of the field and the matrix is invertible.",
  "every state, every field",
  "Infinite domain.",
  [H+"detail/poseidon/poseidon_permutation.hpp", H+"detail/poseidon/poseidon_round_operator.hpp", H+"detail/poseidon/poseidon_constants.hpp"])
p("Poseidon matrix generation terminates with an MDS matrix",
  "generate_constants returns, and the matrix it returns is a Cauchy matrix with non-zero determinant.",
  "every sequence of random draws",
  "A test cannot observe non-termination for all random draws.",
  [H+"detail/poseidon/poseidon_constants_generator.hpp:generate_mds_matrix"])
p("Grain LFSR constant generation",
  "The 80-bit LFSR step is a bijection, never reaches the zero state from the initial state, the self-shrinking sampler always produces a bit within a bounded number of steps, the produced bit stream is the one of the Poseidon specification, and every generated constant is a reduced field element.",
  "every non-zero LFSR state, every modulus",
  "2^80 states.",
  [H+"detail/poseidon/poseidon_constants_generator.hpp", H+"detail/reinforced_concrete/reinforced_concrete_lfsr.hpp"])
p("Requested Poseidon rate is the rate used",
  "poseidon_policy<Field, Security, Rate> absorbs Rate field elements per permutation, and permutes with the number of rounds published for that security and a state of Rate + 1 elements.",
  "every supported (security, rate) pair",
  "The pair (128, 8) is never instantiated.",
  [H+"detail/poseidon/poseidon_policy.hpp"])
p("Reinforced Concrete permutation is a bijection",
  "Bricks, Concrete and Bars are bijections of the state; digit decomposition followed by composition is the identity; each digit S-box maps its digit range to itself.",
  "every state",
  "Infinite domain.",
  [H+"detail/reinforced_concrete/reinforced_concrete_operators.hpp"])
p("CRC chunking independence and octet order",
  "A CRC computed through the stream interface equals the CRC register folded over the octets in order, for any chunking and any iterator category, and is serialised most significant octet first.",
  "every octet sequence and chunking, every CRC parameter set",
  "Infinite domain.",
  [H+"crc.hpp", H+"detail/crc/accumulator.hpp"])
p("Fixed digest size and octet range",
  "Every digest has exactly digest_bits/8 octets, each below 256, for all block hashes.",
  "every message, every construction",
  "Infinite domain.",
  [H+"detail/merkle_damgard_construction.hpp", H+"detail/sponge_construction.hpp", H+"detail/haifa_construction.hpp"])
p("Pack conversions are lossless",
  "Packing between chunk widths and byte/bit orders preserves the bit stream and is undone by packing back with the orders and widths exchanged.",
  "every data array, every pair of endiannesses, every pair of chunk widths dividing the data",
  "Infinite domain; 16 endianness pairs times all widths.",
  ["docs/pack.md", "test/pack.cpp", H+"detail/block_stream_processor.hpp"])
p("All entry points agree",
  "The iterator, range, initializer-list, output-iterator, accumulator and range-adaptor forms of hash<H> return the same digest for the same data.",
  "every input sequence",
  "Infinite domain.",
  [H+"algorithm/hash.hpp", H+"hash_value.hpp", H+"adaptor/hashed.hpp"])
p("Tiger with a truncated digest",
  "tiger<128> and tiger<160> are the truncations of the 192-bit Tiger digest.",
  "every message",
  "Only tiger<192> is instantiated in tests.",
  [H+"detail/tiger/basic_tiger_policy.hpp", H+"tiger.hpp:process_block"])
p("BLAKE2b mixing is invertible",
  "For a fixed message block and counter the twelve-round mixing of the sixteen working words is a bijection.",
  "every working state and block",
  "2^1024 states.",
  [H+"detail/blake2b/blake2b_functions.hpp", H+"blake2b.hpp"])
p("Tiger and RIPEMD step functions are invertible for a fixed block",
  "For a fixed block the keyed part of the Tiger compression (before feed-forward) and each RIPEMD line are bijections of the chaining state.",
  "every state and block",
  "2^192 .. 2^320 states.",
  [H+"detail/tiger/tiger_functions.hpp", H+"detail/ripemd/ripemd_functions.hpp"])
p("Taking a digest as an array",
  "Converting a hash result to an array of octets yields exactly the digest; no memory outside the array is touched and no element is left indeterminate, whatever the array's size.",
  "every message, every array size",
  "The size is a template parameter chosen by the caller; tests use the right one.",
  [H+"hash_value.hpp: range_hash_impl::operator std::array"])
p("CRC detects burst errors",
  "For a polynomial with a constant term, two messages of equal length that differ only within a window of at most as many bits as the register have different CRC digests.",
  "every message, every burst, every register width and odd polynomial",
  "Infinite domain; tests compare a few check values.",
  [H+"crc.hpp", H+"detail/crc/accumulator.hpp"])
p("Poseidon constant tables are the published ones",
  "The round constants and matrices built into the library for BN254 and BLS12-381 (rates 2 and 4) are what the generation published with Poseidon gives: Grain LFSR, self-shrinking, rejection of values not below the modulus, Cauchy matrix from the following values.",
  "every entry of every table",
  "A wrong constant changes every hash, but a test with a few vectors taken from the same code would not notice; the derivation needs thousands of LFSR steps.",
  [H+"detail/poseidon/original_constants.hpp"])
p("Mapping a field element to the curve",
  "For every field element the map to BLS12-381's G1 or G2 returns a point of the curve y^2 = x^3 + 4 (respectively 4(1+i)): the isogenous image of the point of the simplified SWU map, and the identity if that point is in the isogeny's kernel.",
  "every field element u",
  "The elements whose intermediate point is in the kernel are a handful among 2^381.",
  [H+"detail/h2c/h2c_functions.hpp: map_to_curve, iso_map"])
p("Hash-to-curve results have prime order",
  "Every result of hashing to G1 or G2, multiplied by r, is the identity: the effective cofactors are those of the RFC.",
  "every pair of field elements, every map to the curve",
  "A wrong digit in the 636-bit cofactor changes results that only have the test vectors to compare with.",
  [H+"detail/h2c/h2c_functions.hpp: ep_map, clear_cofactor", H+"detail/h2c/h2c_suites.hpp: h_eff"])
p("Hashing to a curve",
  "The result of hash-to-curve for a message fed in any pieces is the effective cofactor times the sum of the images of the two elements of hash_to_field of the message.",
  "every message, every division of it into ranges",
  "Unbounded messages and divisions.",
  [H+"h2c.hpp: process", H+"detail/h2c/h2c_functions.hpp: ep_map"])
p("Assembly keeps its contract with the compiler",
  "After the inline assembly of a Keccak permutation every register that is neither an output nor on its clobber list holds what it held before, so that the surrounding code, and a second inlined call, still see their values.",
  "every state, every contents of the registers and of uninitialised memory",
  "What breaks depends on how the compiler happens to allocate registers in each caller; a test exercises one allocation.",
  [H+"detail/keccak/keccak_x86_64_impl.hpp: permute", H+"detail/keccak/keccak_armv8_impl.hpp: permute", H+"detail/keccak/keccak_avx2_impl.hpp: permute"])
p("MD4, MD5, SHA, SHA-1 and SHA-2 equal their standards",
  "For every octet string shorter than 2^61 octets the digests of md4, md5, sha, sha1 and sha2 with 224, 256, 384 and 512 bits are those of RFC 1320, RFC 1321, FIPS 180 and FIPS 180-4, provided the block cipher of crypto3-block performs the published steps: initial values, byte order, padding, feed-forward and truncation are right.",
  "every octet string, every division of memory, every cipher computing the published steps",
  "Unbounded messages; vectors cover a few lengths.",
  [H+"md4.hpp", H+"md5.hpp", H+"sha.hpp", H+"sha1.hpp", H+"sha2.hpp", H+"detail/sha2/sha2_policy.hpp: iv_generator", H+"detail/davies_meyer_compressor.hpp"])
p("Keccak digests are the same on every platform",
  "keccak_1600 gives the same digest of every octet string, Keccak's, whichever implementation of the permutation the processor and the build select, and whatever the registers and uninitialised memory hold at each call.",
  "every octet string, digest size, platform, contents of registers and memory at each call",
  "A test runs on one machine; and digests that ignore part of the message still look random.",
  [H+"keccak.hpp: process_block", H+"detail/keccak/keccak_functions.hpp: impl_type", H+"detail/keccak/keccak_finalizer.hpp"])
p("Hashing to BLS12-381 with the default parameters",
  "With default parameters h2f and h2c are RFC 9380's hash_to_field and hash_to_curve of the suites BLS12381G1_XMD:SHA-256_SSWU_RO_ and BLS12381G2_XMD:SHA-256_SSWU_RO_, under the domain separation tags QUUX-V01-CS02-with-<suite>: for every message, fed in any pieces, the digest is the element, or the point, the RFC defines.",
  "every message shorter than 2^60 octets, every division of it into ranges",
  "The RFC has five test vectors for each suite; messages and the exceptional cases of the maps are unbounded.",
  [H+"h2f.hpp: h2f_default_params, h2f", H+"h2c.hpp: h2c_default_params, h2c", H+"detail/h2f/h2f_suites.hpp: h2f_suite", H+"detail/h2c/h2c_suites.hpp: h2c_suite"])
p("A collision of Pedersen hashes is a relation among the bases",
  "Two different messages of whole 3-bit groups with the same Pedersen hash yield, explicitly, integer coefficients, not all 0 modulo the order of the group, with which the base points combine to the neutral element. Messages that differ only in the zero bits that complete the last group have the same hash.",
  "every pair of messages, every group and every sequence of base points",
  "Quantifies over all pairs of messages; colliding pairs cannot be found by tests.",
  [H+"pedersen.hpp: pedersen_to_point, pedersen", H+"find_group_hash.hpp"])
p("A collision of BLAKE2b digests is a collision of its compression function",
  "If two different octet strings have the same BLAKE2b digest then two of the calls of the compression function made while hashing them, which the theorem names, differ and agree in their result (in the digest's octets of it, for shorter digests).",
  "every pair of octet strings shorter than 2^64 octets",
  "Quantifies over all pairs of messages.",
  [H+"blake2b.hpp", H+"detail/blake2b/blake2b_policy.hpp", H+"detail/haifa_construction.hpp"])
p("Domain separation of expand_message_xmd",
  "If the outputs of expand_message_xmd for two different triples of message, domain separation tag and length agree in their first digest's worth of octets, then one of two explicit pairs of hash inputs is a collision of the underlying hash.",
  "every pair of messages, of tags of 16 to 255 octets, and of lengths accepted, every division of the messages into ranges",
  "Quantifies over all pairs of messages and tags.",
  [H+"detail/h2f/h2f_functions.hpp: expand_message_xmd", H+"h2f.hpp"])
p("Poseidon's linear layer is MDS",
  "In every Poseidon instance for which the library has constants, two different states that agree in all but k of their t words go, through the linear layer and through every full or partial round, to states that differ in at least t + 1 - k words; a difference in one word reaches all words in one round.",
  "every instance with tables, every round, every pair of states",
  "Quantifies over all pairs of states over 255-bit fields; a table with one singular submatrix passes every test vector made from it.",
  [H+"detail/poseidon/original_constants.hpp", H+"detail/poseidon/kimchi_constants.hpp", H+"detail/poseidon/poseidon_round_operator.hpp", H+"detail/poseidon/poseidon_constants.hpp: product_with_mds_matrix"])
p("A collision of sponge digests is a collision of the sponge",
  "If two different octet strings have the same SHA-3 or Keccak digest, or one has a SHA-3 digest equal to a Keccak digest of the same size of any octet string, itself included, then either two different final states are squeezed to the same digest or two different sequences of blocks lead to states with the same capacity part; the states are those after all blocks and those before the last block.",
  "every pair of octet strings shorter than 2^64 bits, every digest size for which the rate is a whole number of words, every mix of the two hashes",
  "Quantifies over all pairs of messages.",
  [H+"sha3.hpp", H+"keccak.hpp", H+"detail/sha3/sha3_padding.hpp", H+"detail/keccak/keccak_padding.hpp", H+"detail/sponge_construction.hpp"])
p("CRC-32 and two-bit errors",
  "Two messages that differ in exactly two bits have the same PNG CRC-32 digest if and only if the distance of the bits is a multiple of 2^32 - 1; every two-bit error in a message of at most 2^32 - 1 bits is detected.",
  "every pair of octet strings that differ in two bits, at any distance",
  "The distances and messages are unbounded; the first undetected error needs a message of half a gigabyte.",
  [H+"crc.hpp: crc32_png, basic_crc", H+"detail/crc/accumulator.hpp"])
p("CRCs are affine",
  "For every CRC, the digest of the exclusive or of three messages of one length is the exclusive or of their three digests.",
  "every parameter set, every three octet strings of one length",
  "Quantifies over all messages and parameter sets.",
  [H+"crc.hpp: basic_crc, crc", H+"detail/crc/accumulator.hpp"])
p("The Keccak assembly runs in constant time",
  "Each assembly permutation executes the same instructions, reads and writes the same addresses and takes the same branches whatever the state it permutes: one fixed record of these is the record of every run.",
  "every state, every initial value of the registers and of the uninitialised memory, every choice of registers for the operands",
  "Quantifies over all 2^1600 states; a data-dependent address or branch changes no digest and so no test.",
  [H+"detail/keccak/keccak_x86_64_impl.hpp", H+"detail/keccak/keccak_armv8_impl.hpp", H+"detail/keccak/keccak_avx2_impl.hpp", H+"detail/keccak/keccak_avx512_impl.hpp"])
p("Messages of 2^64 bits and more",
  "The digest of a message of any length is the one its standard defines (for MD4, MD5 and RIPEMD: with the length modulo 2^64 in the length field).",
  "every octet string, of any length, every Merkle-Damgard hash, SHA-3, Keccak and BLAKE2b",
  "The first such message has 2^61 octets; no test can hash it.",
  [H+"accumulators/hash.hpp: process, total_seen", H+"detail/merkle_damgard_construction.hpp", H+"detail/sponge_construction.hpp", H+"detail/haifa_construction.hpp"])
p("Every segment of a Pedersen message has its own base point",
  "The Pedersen hash of a message of any length is the sum over its segments, each multiplied with the base point generated from its own number, so that segments cannot change places.",
  "every bit string shorter than 2^64 bits, with any number of segments, every group and base-point generator",
  "The first message with more than 2^32 segments has 2^32 * 189 bits.",
  [H+"pedersen.hpp: update_new_segment, hash<base_point_generator>"])
p("Length extension",
  "With MD4, MD5, SHA, SHA-1, SHA-256, SHA-512, RIPEMD-128/160/256/320 and Tiger/192, from the digest and the length of a message alone one can compute the digest of the message followed by its padding and any further octets; so hash(secret, message) authenticates nothing, and a collision of two messages of one length continues with every suffix.",
  "every message, every continuation, every digest and every content of the message",
  "Quantifies over all messages, also those whose digest alone is known.",
  [H+"accumulators/hash.hpp", H+"detail/merkle_damgard_construction.hpp: process, digest", H+"detail/merkle_damgard_padding.hpp", H+"detail/tiger/tiger_padding.hpp", H+"sha2.hpp", H+"ripemd.hpp", H+"tiger.hpp"])
p("Digests are the same on machines of either byte order",
  "A program that hashes octets gets the same digests on a big-endian machine as on a little-endian one, with every hash and every order of updates and extractions; a program that hashes wider integers does too.",
  "every hash construction, every history of updates and extractions, both machine byte orders",
  "The tests run on one machine.",
  [H+"detail/block_stream_processor.hpp:process_block", "docs/pack.md", "test/find_group_hash.cpp"])

p("The default Pedersen hash uses the base points of the Zcash construction",
  "pedersen_to_point with its default parameters returns the sum of the message's segments with the base points FindGroupHash(\"Zcash_PH\", URS, i), where i is the number of the segment as four octets, least significant first, the hash inside FindGroupHash is SHA-256, and segments have 63 chunks.",
  "every bit string of at most 2^32 segments fed in any pieces, every group with the laws of Jubjub's, every content of uninitialised memory",
  "The tests hash messages of a few lengths, of at most 20 segments; the base points of the others are never compared.",
  [H+"pedersen.hpp:pedersen_to_point", H+"find_group_hash.hpp", H+"sha2.hpp", H+"detail/pedersen/basic_functions.hpp"])

p("Taking a CRC as an integer",
  "A CRC requested as an integer of its width (std::uint32_t c = hash<crc32_png>(range)) is the checksum.",
  "every CRC, every octet string, every iterator category",
  "The tests only take CRCs as octets and strings.",
  [H+"hash_value.hpp:operator Integral", H+"crc.hpp:digest", "docs/pack.md"])

p("Accumulators are values",
  "In a program that creates, feeds, copies and reads several accumulators in any order, each digest is that of the octets fed to that accumulator (and, up to the copy, to the one it was copied from); no call on one accumulator changes the digest of another. Taking digests from copies therefore works even for the hashes whose own extraction disturbs the accumulator (hash-to-field, hash-to-curve, Pedersen).",
  "every block hash, every CRC, every hash-to-field and hash-to-curve suite, find_group_hash, every Pedersen instance; every finite program of creations, updates, extractions and copies over any number of accumulators",
  "It quantifies over all interleavings and copies; tests use one accumulator at a time and never copy one.",
  [H+"accumulators/hash.hpp:hash_impl", H+"h2f.hpp", H+"h2c.hpp", H+"find_group_hash.hpp", H+"pedersen.hpp:internal_accumulator_type"])

p("A checksum after the message is recognised by one fixed digest",
  "For a CRC of whole octets whose polynomial has a constant term and that reflects both or neither of input and result, there is one digest (the residue) that a message followed by W/8 octets has exactly when those octets are the message's CRC: the digest, or its octets in reverse if the CRC is reflected. For crc32_png the residue is 21 44 df 1c.",
  "every such CRC, every octet string, every trailer, every iterator category",
  "It is an equivalence over all messages and all trailers; no test can show that no wrong trailer is accepted.",
  [H+"crc.hpp:crc, crc32_png", H+"detail/crc/accumulator.hpp"])

p("Hash-to-field is unbiased",
  "The field elements that hash-to-field returns are those of the octets that expand_message_xmd returns, each coordinate taken from L octets of its own. If p 2^k <= 256^L, every list of elements comes from at least q^(count m) and at most (q+1)^(count m) strings of octets, with q = floor(256^L / p) >= 2^k; the BLS12-381 suites have k = 128 and L = ceil((ceil(log2 p) + k) / 8).",
  "every hash, history, modulus, extension degree, L and count; every list of field elements",
  "It counts preimages of every list of field elements, of which there are more than 2^380.",
  [H+"h2f.hpp", H+"detail/h2f/h2f_suites.hpp", H+"detail/h2f/h2f_functions.hpp"])

p("Few field elements map to one point",
  "At most 18 field elements are mapped to one point of G2, and at most 66 to one point of G1 (126 to the point the code substitutes for the identity), so over uniform field elements no point is likelier than 18/q^2, 66/q or 126/q.",
  "every point, every set of field elements, every implementation of the field's methods that meets its contract",
  "It counts preimages of every point among more than 2^380 field elements.",
  [H+"detail/h2c/h2c_functions.hpp:m2c_simple_swu, iso_map", H+"detail/h2c/h2c_suites.hpp"])

p("A collision of digests is a collision of the published compression function",
  "If two different messages have the same MD4, MD5, SHA, SHA-1, SHA-256, SHA-512, RIPEMD or Tiger/192 digest, then among the calls of the published compression function that the published hash makes for them there are two with different arguments and the same result. For SHA-224 and SHA-384 the other possibility is that the two final states agree only in the part that is kept.",
  "every pair of octet strings below 2^64 bits, every content of uninitialised memory, every block cipher that meets its contract",
  "No test can show that there is no other way to collide, such as two messages with one padded form.",
  [H+"md4.hpp", H+"md5.hpp", H+"sha.hpp", H+"sha1.hpp", H+"sha2.hpp", H+"ripemd.hpp", H+"tiger.hpp", H+"detail/merkle_damgard_construction.hpp", H+"detail/merkle_damgard_padding.hpp"])

p("Every hash of the library, in any program, is the function it is published as",
  "MD4, MD5, SHA, SHA-1, SHA-224/256/384/512, RIPEMD-128/160/256/320, Tiger/192, SHA-3, Keccak and BLAKE2b (RFC 7693, unless the length is a positive multiple of 128 octets: C21) give the published digest of the octets fed, through every entry point, and in every program that uses accumulators of any of these hashes side by side, feeds them octets or wider values that divide their words, copies and reads them in any order. The digest always has the published size, and expand_message_xmd and hash_to_field over any of these hashes are RFC 9380's over the published function.",
  "every hash named, every message below 2^64 bits, every division into ranges, every program over any number of accumulators, every content of uninitialised memory",
  "Tests hash a few messages with one hash and one accumulator at a time.",
  [H+"md4.hpp", H+"md5.hpp", H+"sha.hpp", H+"sha1.hpp", H+"sha2.hpp", H+"ripemd.hpp", H+"tiger.hpp", H+"sha3.hpp", H+"keccak.hpp", H+"blake2b.hpp", H+"accumulators/hash.hpp", H+"algorithm/hash.hpp"])

p("Threads with accumulators of their own do not interfere",
  "Any number of threads create, feed, copy and read accumulators, each its own, with updates preempted between any two values. Whatever the order of their turns, no turn fails, and each thread is given, digest by digest, what it would be given alone; it is given all of it once it has had a number of turns that depends on its own calls only. For the hashes of C80 and the CRCs these are the published digests.",
  "every program of any number of threads, every schedule, every block hash, CRC, hash-to-field and hash-to-curve suite, find_group_hash and Pedersen instance",
  "It quantifies over all schedules; the tests have one thread.",
  [H+"accumulators/hash.hpp", H+"hash_value.hpp", H+"detail/block_stream_processor.hpp", H+"detail/crc/accumulator.hpp", H+"pedersen.hpp", H+"detail/h2f/h2f_functions.hpp"])

p("Threads may read one accumulator",
  "Several threads may take digests and copies of an accumulator that none of them feeds (extraction is const): each gets what it would get alone.",
  "every program of any number of threads, every schedule, every kind of accumulator",
  "It quantifies over all schedules; the tests have one thread.",
  [H+"accumulators/hash.hpp:result", H+"h2f.hpp", H+"pedersen.hpp"])

p("When reading a range fails, what was read has been hashed and nothing else",
  "If an iterator throws while a range is fed to an accumulator, the accumulator is left as if the range had ended there: a program that catches the exception and goes on gets the digests of the values read, with no value lost (also those still buffered) and none fed twice. An entry point that writes its digest to an output iterator writes nothing in that case.",
  "every point at which reading can fail, every block hash, CRC, hash-to-field and Pedersen instance, every width of values, every program of accumulators that catches the exceptions",
  "It ranges over all crash points in all ranges; the tests have no failing iterator.",
  [H+"hash_value.hpp:range_hash_impl, itr_hash_impl", H+"detail/block_stream_processor.hpp:~block_stream_processor", H+"algorithm/hash.hpp", H+"pedersen.hpp:update", H+"crc.hpp:crc_stream_processor"])

p("Construction objects can be used directly, reset, and continued from saved states",
  "A caller who builds the block construction of a hash, gives it the whole blocks of a message with process_block and the rest with digest (in a block whose unused part may hold anything) gets the published digest. reset() makes an object as new whatever it did before, also after digest. b.reset(a.state()) makes b continue the message of a, so that a common prefix can be processed once and finished in many ways. Copies are independent.",
  "every hash of the library, every program over any number of objects, every message below 2^64 bits, every content of unused parts of blocks",
  "Tests use the constructions only through accumulators, and no test saves a state; the claim ranges over all programs and prefixes.",
  [H+"detail/merkle_damgard_construction.hpp:digest, reset, state", H+"detail/sponge_construction.hpp:digest, reset, state", H+"detail/haifa_construction.hpp:digest, reset, state"])

p("Poseidon sponges are values",
  "A program may create any number of Poseidon sponges, absorb, squeeze and copy them in any order: each squeeze gives the element that the elements absorbed by that sponge since its last squeeze, chained to what it was last squeezed to, determine; a copy continues on its own. Threads with sponges of their own do not interfere, whatever the schedule. The reference squeeze returns reads the squeezed element until more than rate elements are absorbed, and then the chaining element.",
  "every program over any number of sponges, every schedule of any number of threads, every element, every policy with capacity 1 and every table of the library",
  "Tests use one sponge, in one thread, and take the value at once.",
  [H+"detail/poseidon/poseidon_sponge.hpp:absorb, squeeze", H+"detail/poseidon/poseidon_policy.hpp"])

p("Which CRCs detect every odd number of flipped bits",
  "If the generator polynomial given to the crc template has an even number of terms (counting the leading one), two messages of one length have digests that differ in an odd number of bits exactly when the messages do, so any odd number of flipped bits changes the digest. If it has an odd number of terms, as that of crc32_png, every message longer than the digest has a twin of the same length and digest that differs from it in an odd number of bits.",
  "every polynomial, width, initial value, final xor and reflection, every pair of messages of one length, every iterator category",
  "It ranges over all messages and all sets of flipped bits; tests compare a few check values of one polynomial.",
  [H+"crc.hpp:basic_crc, crc", H+"detail/crc/accumulator.hpp"])

p("What Merkle-Damgard objects return when reset is forgotten, or digest is not the end",
  "In every program over construction objects of MD4, MD5, SHA, SHA-1, SHA-2, RIPEMD and Tiger, also one that calls digest twice, goes on after digest, saves states after digest or passes wrong counts, each digest is the published chaining, from the published initial value, of the octets given to that object since its creation, reset or copy, where each earlier digest counts for the part of its block it used, the marker, the zeros and the length it put there. So a message hashed without reset has the last chaining value of the one before as initial value, and a caller who goes on counting after digest gets the digest of the padded first message followed by the second.",
  "every program over any number of objects, every order of calls, every block and every count of whole octets below 2^64, every pair of messages",
  "Tests reset, or use each object once; the claim ranges over all misuses, whose results no test vector gives.",
  [H+"detail/merkle_damgard_construction.hpp:process_block, digest, reset, state", H+"detail/davies_meyer_compressor.hpp", H+"ripemd.hpp", H+"tiger.hpp"])

p("What SHA-3 and Keccak objects return when reset is forgotten, or digest is not the end",
  "In every program over construction objects of SHA-3 and keccak_1600, also one that calls digest twice, goes on after digest, saves states after digest or passes wrong counts, each digest is squeezed from a 1600-bit state that process_block changes by absorbing its block, digest by absorbing the used part of its block with suffix and padding, and which digest then leaves as the words of the digest followed by zeros. So, for digest sizes that are multiples of 64 up to 512, a message not shorter than a digest and hashed without reset gets H(m2 xor H(m1)), the first digest added to its first octets, and for every other first message there is a second one of the same length with the same second digest.",
  "every program over any number of objects, every order of calls, every block and every count of whole octets below 2^64, every digest size the library allows, every pair of messages",
  "Tests reset, or use each object once; the claim ranges over all misuses, whose results no test vector gives.",
  [H+"detail/sponge_construction.hpp:process_block, digest, reset, state", H+"detail/keccak/keccak_finalizer.hpp", H+"keccak.hpp", H+"sha3.hpp"])

p("What BLAKE2b objects return when reset is forgotten, digest is not the end, or states are passed on",
  "In every program over construction objects of blake2b, also one that calls digest twice, goes on after digest, passes wrong counts or states saved at any moment, each digest is the front of an eight-word state that process_block changes by the compression function of RFC 7693 with the octets counted, digest by compressing the used part of its block followed by zeros as the last one (a full block first also as one that is not the last), and to which reset(state) adds the parameter word. So a message hashed without reset has the state after the one before in place of the initial one, and a state passed on twice, from a to b and from b to c, makes c a copy of a.",
  "every program over any number of objects, every order of calls, every block and every count below 2^64 (whole octets for digest), every digest size up to 512 bits, every pair of messages",
  "Tests reset, or use each object once, and save no states; the claim ranges over all misuses, whose results no test vector gives.",
  [H+"detail/haifa_construction.hpp:process_block, digest, reset, state", H+"detail/blake2b/blake2b_padding.hpp", H+"blake2b.hpp:blake2b_compressor"])

if __name__=="__main__":
    open("/verif/properties.jsonl","w").write("".join(json.dumps(x)+"\n" for x in P))
    for x in P: print(x["id"],x["title"])
