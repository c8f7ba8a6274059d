{"id": "C01", "title": "One-shot Merkle-Damgard digest equals the published padding-and-chaining definition", "statement": "For every hash built on the Merkle-Damgard construction (MD4, MD5, SHA, SHA-1, SHA-2, RIPEMD, Tiger), hash<H>(message) is exactly: append the padding marker, the least number of zero bits, and the bit length in the hash's byte order so that the result is a whole number of blocks, run the compression function over the blocks from the IV, and serialise the first digest_bits bits of the state in the hash's byte order.", "quantifier": "every message of fewer than 2^64 bits, every compression function, IV, word size, block size and length-field size", "why_tests_cant": "Known-answer tests touch a handful of lengths; the padding has boundary cases at every block offset and the claim is about all of them and all contents.", "anchors": ["include/nil/crypto3/hash/detail/merkle_damgard_construction.hpp:merkle_damgard_construction::digest", "include/nil/crypto3/hash/detail/merkle_damgard_padding.hpp", "include/nil/crypto3/hash/accumulators/hash.hpp:hash_impl", "include/nil/crypto3/hash/detail/block_stream_processor.hpp"]}
{"id": "C02", "title": "Chunking independence", "statement": "Feeding a message to an accumulator in any number of pieces with successive hash<H>(piece, acc) calls and then extracting gives the same digest as hashing the concatenation in one call, for the Merkle-Damgard, sponge and HAIFA constructions alike.", "quantifier": "every message, every way of cutting it into pieces (including empty pieces), every construction", "why_tests_cant": "The number of ways to split a message is exponential; the cached-bits, filled and carry-over branches depend on the whole history of piece sizes.", "anchors": ["include/nil/crypto3/hash/accumulators/hash.hpp:hash_impl::process", "include/nil/crypto3/hash/detail/block_stream_processor.hpp", "include/nil/crypto3/hash/algorithm/hash.hpp"]}
{"id": "C03", "title": "Element-width independence", "statement": "Hashing a range of 16-, 32- or 64-bit integers gives the digest of the octet string obtained by writing each integer as the machine stores it, on a little-endian machine least significant octet first, whatever the byte order of the hash; mixing element widths between calls is allowed.", "quantifier": "every sequence of ranges, each with its own element width dividing the word size", "why_tests_cant": "Tests only pass octet ranges for most hashes.", "anchors": ["include/nil/crypto3/hash/detail/block_stream_processor.hpp:process_block", "docs/pack.md", "test/find_group_hash.cpp", "test/pedersen.cpp"]}
{"id": "C04", "title": "Extraction is repeatable and does not disturb the accumulator (block hashes)", "statement": "Extracting the digest from an accumulator of a block hash any number of times, at any points between updates, never changes any later digest: each extraction returns the digest of exactly the bits fed so far.", "quantifier": "every interleaving of updates and extractions", "why_tests_cant": "The property ranges over all histories of update and extract.", "anchors": ["include/nil/crypto3/hash/accumulators/hash.hpp:hash_impl::result"]}
{"id": "C05", "title": "Uninitialised and stale memory never reaches a digest", "statement": "The digest depends only on the bits fed: not on the uninitialised contents of the accumulator's block cache, not on stale words left from earlier blocks, and not on the bits of a supplied block or word beyond the stated bit count.", "quantifier": "every initial memory content, every history of feeds", "why_tests_cant": "Memory contents are not under a test's control; a test run sees one memory image.", "anchors": ["include/nil/crypto3/hash/accumulators/hash.hpp", "include/nil/crypto3/hash/detail/merkle_damgard_padding.hpp", "include/nil/crypto3/hash/detail/blake2b/blake2b_padding.hpp"]}
{"id": "C06", "title": "Bit-exact block feeds", "statement": "acc(block, bits = n) appends exactly the first n bits (in the hash's bit order) of the block to the message, for any n from 1 to the block size, whatever was fed before by block feeds.", "quantifier": "every sequence of block feeds with arbitrary bit counts", "why_tests_cant": "Block-straddling bit offsets: (block size)^2 combinations per step and unbounded histories.", "anchors": ["include/nil/crypto3/hash/accumulators/hash.hpp:hash_impl::process(block_type)"]}
{"id": "C07", "title": "Word feeds append their bits", "statement": "acc(word, bits = n) appends exactly the first n bits of the word to the message, whatever was fed before.", "quantifier": "every sequence of word and block feeds", "why_tests_cant": "The failure needs a word feed that ends on a block boundary followed by another feed; the shipped tests feed at most three words.", "anchors": ["include/nil/crypto3/hash/accumulators/hash.hpp:hash_impl::process(word_type)"]}
{"id": "C08", "title": "The reported bit count is the hashed bit count", "statement": "The bit counter a hash accumulator carries (the bits_count feature it depends on) equals the number of message bits the hash has absorbed.", "quantifier": "every history of feeds, with or without an explicit bit count", "why_tests_cant": "Tests never compare the two counters.", "anchors": ["include/nil/crypto3/hash/accumulators/bits_count.hpp:bits_count_impl", "include/nil/crypto3/hash/accumulators/hash.hpp:resolve_type"]}
{"id": "C09", "title": "Merkle-Damgard padding is injective", "statement": "Two different messages never produce the same padded block sequence, so any digest collision yields a collision of the compression function chain.", "quantifier": "every pair of messages of fewer than 2^64 bits", "why_tests_cant": "Quantifies over all pairs of messages.", "anchors": ["include/nil/crypto3/hash/detail/merkle_damgard_padding.hpp", "include/nil/crypto3/hash/detail/merkle_damgard_construction.hpp:append_length"]}
{"id": "C10", "title": "Number of compression calls", "statement": "Extracting a digest after n message bits has run the compression function exactly ceil((n + 1 + length_bits) / block_bits) times, no data block being skipped or repeated.", "quantifier": "every message length, every chunking", "why_tests_cant": "Must hold at every offset within a block and for every chunking.", "anchors": ["include/nil/crypto3/hash/detail/merkle_damgard_construction.hpp:digest", "include/nil/crypto3/hash/accumulators/hash.hpp"]}
{"id": "C11", "title": "Tiger uses its own padding marker", "statement": "Tiger<192> digests equal the published Tiger: 0x01 marker octet, zero octets, 64-bit little-endian bit length, the Tiger compression function, little-endian output.", "quantifier": "every octet string shorter than 2^61 octets", "why_tests_cant": "Infinite input domain.", "anchors": ["include/nil/crypto3/hash/detail/tiger/tiger_padding.hpp", "include/nil/crypto3/hash/tiger.hpp", "include/nil/crypto3/hash/detail/tiger/tiger_functions.hpp"]}
{"id": "C12", "title": "SHA-3 equals FIPS 202", "statement": "hash<sha3<n>> of an octet string is SHA3-n of FIPS 202 (sponge with Keccak-f[1600], capacity 2n, suffix 01, pad10*1, octets read least significant bit first).", "quantifier": "n in {224,256,384,512}, every octet string shorter than 2^61 octets, every chunking", "why_tests_cant": "Infinite input domain; rate-boundary lengths are where padding code goes wrong.", "anchors": ["include/nil/crypto3/hash/sha3.hpp", "include/nil/crypto3/hash/detail/sha3/sha3_padding.hpp", "include/nil/crypto3/hash/detail/sponge_construction.hpp", "include/nil/crypto3/hash/detail/sha3/sha3_functions.hpp", "include/nil/crypto3/hash/detail/sha3/sha3_finalizer.hpp"]}
{"id": "C13", "title": "Keccak equals the original Keccak submission", "statement": "hash<keccak_1600<n>> of an octet string is Keccak[r = 1600-2n, c = 2n] with plain pad10*1.", "quantifier": "n in {224,256,384,512}, every octet string shorter than 2^61 octets, every chunking", "why_tests_cant": "Infinite input domain.", "anchors": ["include/nil/crypto3/hash/keccak.hpp", "include/nil/crypto3/hash/detail/keccak/keccak_padding.hpp", "include/nil/crypto3/hash/detail/keccak/keccak_finalizer.hpp"]}
{"id": "C14", "title": "Sponge hashing of bit strings", "statement": "A message whose length is not a whole number of octets, fed with acc(block, bits = n), is padded with (suffix and) pad10*1 directly after its last bit, and different bit strings give different padded messages.", "quantifier": "every bit length and content", "why_tests_cant": "The library's own bit-level test is commented out; the property ranges over all lengths modulo the rate.", "anchors": ["include/nil/crypto3/hash/detail/keccak/keccak_padding.hpp", "include/nil/crypto3/hash/detail/sha3/sha3_padding.hpp", "include/nil/crypto3/hash/detail/sponge_construction.hpp:digest"]}
{"id": "C15", "title": "Generic Keccak-f[1600] equals the FIPS 202 step mappings", "statement": "The portable permutation equals 24 rounds of iota(chi(pi(rho(theta(A))))) as defined bit by bit in FIPS 202, including the round constants and rotation offsets obtained from their generating rules.", "quantifier": "every 1600-bit state", "why_tests_cant": "2^1600 states.", "anchors": ["include/nil/crypto3/hash/detail/keccak/keccak_impl.hpp:permute", "include/nil/crypto3/hash/detail/sha3/sha3_functions.hpp:permute"]}
{"id": "C16", "title": "Keccak-f[1600] is a permutation", "statement": "Different 1600-bit states are always mapped to different states, and every state is reached.", "quantifier": "every pair of states", "why_tests_cant": "Injectivity quantifies over pairs of states.", "anchors": ["include/nil/crypto3/hash/detail/keccak/keccak_impl.hpp:permute"]}
{"id": "C17", "title": "The x86-64 assembly permutation equals the portable one", "statement": "On every state the inline assembly Keccak for x86-64 leaves the state array as the portable code does.", "quantifier": "every 1600-bit state", "why_tests_cant": "A wrong register or rotation can show on states no test vector reaches, and the assembly is not built on other machines.", "anchors": ["include/nil/crypto3/hash/detail/keccak/keccak_x86_64_impl.hpp:permute"]}
{"id": "C18", "title": "The ARMv8 assembly permutation equals the portable one", "statement": "On every state the inline assembly Keccak for ARMv8 leaves the state array as the portable code does.", "quantifier": "every 1600-bit state", "why_tests_cant": "As above; CI does not run on ARM.", "anchors": ["include/nil/crypto3/hash/detail/keccak/keccak_armv8_impl.hpp:permute"]}
{"id": "C19", "title": "The AVX2 permutation equals the portable one", "statement": "On every state the AVX2 Keccak leaves the state array as the portable code does.", "quantifier": "every 1600-bit state", "why_tests_cant": "As above.", "anchors": ["include/nil/crypto3/hash/detail/keccak/keccak_avx2_impl.hpp:permute"]}
{"id": "C20", "title": "The AVX-512 permutation equals the portable one", "statement": "On every state the AVX-512 Keccak leaves the state array as the portable code does.", "quantifier": "every 1600-bit state", "why_tests_cant": "No test machine in the project has AVX-512; the path is never executed.", "anchors": ["include/nil/crypto3/hash/detail/keccak/keccak_avx512_impl.hpp:permute"]}
{"id": "C21", "title": "BLAKE2b equals RFC 7693", "statement": "hash<blake2b<n>> of an octet string is unkeyed BLAKE2b-n of RFC 7693.", "quantifier": "n in {224,256,384,512} (any multiple of 8 up to 512), every octet string shorter than 2^61 octets", "why_tests_cant": "Infinite input domain; the library's vectors contain no message whose length is a positive multiple of 128 octets.", "anchors": ["include/nil/crypto3/hash/blake2b.hpp", "include/nil/crypto3/hash/detail/haifa_construction.hpp:digest", "include/nil/crypto3/hash/detail/blake2b/blake2b_padding.hpp", "include/nil/crypto3/hash/detail/blake2b/blake2b_functions.hpp"]}
{"id": "C22", "title": "RIPEMD compression functions equal their definition", "statement": "For RIPEMD-128, -160, -256 and -320 the block compression equals the two-line definition of the RIPEMD specification (step function, word order tables, rotation tables, round constants, exchange of chaining variables between lines), so the whole hash equals RIPEMD-n.", "quantifier": "every chaining state and every block", "why_tests_cant": "2^(state+block) inputs.", "anchors": ["include/nil/crypto3/hash/ripemd.hpp", "include/nil/crypto3/hash/detail/ripemd/ripemd_functions.hpp", "include/nil/crypto3/hash/detail/ripemd/ripemd_policy.hpp"]}
{"id": "C23", "title": "Block-cipher compressors", "statement": "The Davies-Meyer, Matyas-Meyer-Oseas and Miyaguchi-Preneel compressors compute E_m(h)+h, E_h(m)+m and E_h(m)+m+h word by word modulo 2^w (or xor), leave the block unchanged, and Davies-Meyer with a fixed block is injective in nothing but E: the feed-forward is applied to every state word.", "quantifier": "every block cipher, state and block", "why_tests_cant": "The cipher is a template parameter.", "anchors": ["include/nil/crypto3/hash/detail/davies_meyer_compressor.hpp", "include/nil/crypto3/hash/detail/matyas_meyer_oseas_compressor.hpp", "include/nil/crypto3/hash/detail/miyaguchi_preneel_compressor.hpp", "include/nil/crypto3/hash/detail/state_adder.hpp"]}
{"id": "C24", "title": "DigestInfo prefixes are well-formed DER for their digest", "statement": "For every hash that publishes pkcs_id, the prefix followed by a digest is a well-formed DER DigestInfo whose algorithm identifier is that hash's and whose octet string is that digest.", "quantifier": "every hash variant, every digest value", "why_tests_cant": "Nothing in the test suite reads pkcs_id.", "anchors": ["include/nil/crypto3/hash/detail/sha2/sha2_policy.hpp:pkcs_id", "include/nil/crypto3/hash/detail/sha3/sha3_policy.hpp:pkcs_id", "include/nil/crypto3/hash/detail/ripemd/ripemd_policy.hpp:pkcs_id", "include/nil/crypto3/hash/detail/md5/md5_policy.hpp", "include/nil/crypto3/hash/detail/sha1/sha1_policy.hpp", "include/nil/crypto3/hash/detail/tiger/tiger_policy.hpp"]}
{"id": "C25", "title": "Compile-time power", "statement": "detail::pow(x, n) terminates and returns x to the n-th power (modulo the type's range).", "quantifier": "every x and n", "why_tests_cant": "Unbounded exponents.", "anchors": ["include/nil/crypto3/detail/static_pow.hpp:pow"]}
{"id": "C26", "title": "strxor", "statement": "strxor(a, b, out) writes exactly the position-wise exclusive or of two equally long strings; applying it twice with the same second operand restores the first.", "quantifier": "every pair of equally long strings", "why_tests_cant": "Unbounded lengths.", "anchors": ["include/nil/crypto3/detail/strxor.hpp:strxor"]}
{"id": "C27", "title": "expand_message_xmd equals RFC 9380", "statement": "The octets expand_message_xmd produces for a message fed in any pieces equal RFC 9380 section 5.3.1 for the underlying hash, for output lengths that are a multiple of the digest size; no octet is written outside the output buffer.", "quantifier": "every underlying hash, message, chunking, DST of 16..255 octets, output length", "why_tests_cant": "Infinite domain.", "anchors": ["include/nil/crypto3/hash/detail/h2f/h2f_functions.hpp:expand_message_xmd"]}
{"id": "C28", "title": "expand_message_xmd stays within its output buffer", "statement": "For every output length accepted by the static assertions, expand_message_xmd writes only inside the len_in_bytes-octet result.", "quantifier": "every accepted pair of output length and digest length", "why_tests_cant": "Only multiples of the digest length are instantiated in tests.", "anchors": ["include/nil/crypto3/hash/detail/h2f/h2f_functions.hpp:process"]}
{"id": "C29", "title": "hash-to-field equals RFC 9380", "statement": "The field elements h2f returns are OS2IP of consecutive L-octet groups of the expanded message reduced modulo p, coordinate by coordinate, so each coordinate lies in [0,p).", "quantifier": "every message, hash, count in {1,2}, extension degree in {1,2}", "why_tests_cant": "Infinite domain.", "anchors": ["include/nil/crypto3/hash/h2f.hpp:process"]}
{"id": "C30", "title": "Extraction is repeatable for hash-to-field, hash-to-curve and Pedersen", "statement": "Extracting twice from the same accumulator, or extracting and then continuing, behaves as for every other hash: the second extraction returns the same value.", "quantifier": "every history of updates and extractions", "why_tests_cant": "Tests extract once.", "anchors": ["include/nil/crypto3/hash/accumulators/hash.hpp:hash_impl (specialisation)", "include/nil/crypto3/hash/pedersen.hpp:pad_update", "include/nil/crypto3/hash/detail/h2f/h2f_functions.hpp:process"]}
{"id": "C31", "title": "The simplified SWU map always lands on the curve", "statement": "For every field element u, the point computed by the simplified SWU map satisfies y^2 = x^3 + A x + B, including the exceptional inputs, and its y has the sign of u.", "quantifier": "every field element u of every field in which the map's documented preconditions on A, B, Z hold", "why_tests_cant": "The field has about 2^381 (2^762) elements, and the exceptional inputs are never sampled.", "anchors": ["include/nil/crypto3/hash/detail/h2c/h2c_functions.hpp:m2c_simple_swu"]}
{"id": "C32", "title": "The isogeny maps are the RFC's isogenies to BLS12-381", "statement": "The 11-isogeny (G1) and 3-isogeny (G2) maps with the coefficient tables in the code send every affine point of the auxiliary curve that is not in the kernel to its image under the RFC's isogeny (the one with that kernel given by Velu's formulas, scaled by 11^-2, 11^-3, respectively (-3)^-2, (-3)^-3), a point of y^2 = x^3 + 4 (respectively 4(1+i)).", "quantifier": "every point of the auxiliary curves", "why_tests_cant": "A wrong digit in one of some seventy 381-bit constants is only detected if all coefficients are exercised in an identity; points are about 2^381 many.", "anchors": ["include/nil/crypto3/hash/detail/h2c/h2c_functions.hpp:iso_map", "include/nil/crypto3/hash/detail/h2c/h2c_suites.hpp"]}
{"id": "C33", "title": "Pedersen hash equals the Zcash definition", "statement": "pedersen_to_point of a bit string is the sum over segments of [<M_i>] I_i of the Zcash protocol specification, with zero padding to a multiple of three bits, for any chunking of the bit string.", "quantifier": "every group, base-point generator and bit string", "why_tests_cant": "Infinite domain.", "anchors": ["include/nil/crypto3/hash/pedersen.hpp:internal_accumulator_type", "include/nil/crypto3/hash/detail/pedersen/lookup.hpp"]}
{"id": "C34", "title": "Pedersen segment encoding is injective and non-zero", "statement": "Different segments of at most c chunks have different encodings modulo the group order, all non-zero, where c is the value computed by chunks_per_base_point; c is the largest admissible value.", "quantifier": "every modulus, every pair of segments", "why_tests_cant": "2^189 segments.", "anchors": ["include/nil/crypto3/hash/detail/pedersen/basic_functions.hpp:chunks_per_base_point", "include/nil/crypto3/hash/detail/pedersen/lookup.hpp"]}
{"id": "C35", "title": "FindGroupHash returns the first valid candidate and terminates", "statement": "find_group_hash tries the one-octet counters 0,1,...,255 in order, returns the cofactor multiple of the first candidate that decodes to a curve point, and reports failure otherwise.", "quantifier": "every message and every decoding behaviour", "why_tests_cant": "The failing case cannot be provoked by a test, and its symptom is non-termination.", "anchors": ["include/nil/crypto3/hash/find_group_hash.hpp:process"]}
{"id": "C36", "title": "Poseidon sponge", "statement": "Absorbing field elements one by one, as a vector, through iterators or through a container, in any grouping, and squeezing gives the value of the sponge definition: groups of rate elements are chained through the last state element.", "quantifier": "every field, permutation, rate and element sequence, every grouping", "why_tests_cant": "Infinite domain.", "anchors": ["include/nil/crypto3/hash/detail/poseidon/poseidon_sponge.hpp", "include/nil/crypto3/hash/algorithm/hash.hpp"]}
{"id": "C37", "title": "Poseidon hashes of different element sequences are only equal by a permutation collision", "statement": "Different element sequences are never mapped to the same sequence of permutation inputs.", "quantifier": "every pair of element sequences", "why_tests_cant": "Quantifies over pairs; the failing pairs differ by trailing zero elements.", "anchors": ["include/nil/crypto3/hash/detail/poseidon/poseidon_sponge.hpp:absorb"]}
{"id": "C38", "title": "Poseidon packing of integers", "statement": "Hashing a container of integers packs as many whole integers as fit into one field element, big-endian, and different containers give different element sequences.", "quantifier": "every container of 8-, 16-, 32- or 64-bit integers", "why_tests_cant": "Quantifies over pairs of containers of any length.", "anchors": ["include/nil/crypto3/hash/algorithm/hash.hpp:absorb"]}
{"id": "C39", "title": "Poseidon permutation is a permutation and multiplies by the published matrix", "statement": "Both round orders compute MDS * state (row-wise) and the permutation is a bijection of the state space whenever the S-box power map is a bijection of the field and the matrix is invertible.", "quantifier": "every state, every field", "why_tests_cant": "Infinite domain.", "anchors": ["include/nil/crypto3/hash/detail/poseidon/poseidon_permutation.hpp", "include/nil/crypto3/hash/detail/poseidon/poseidon_round_operator.hpp", "include/nil/crypto3/hash/detail/poseidon/poseidon_constants.hpp"]}
{"id": "C40", "title": "Poseidon matrix generation terminates with an MDS matrix", "statement": "generate_constants returns, and the matrix it returns is a Cauchy matrix with non-zero determinant.", "quantifier": "every sequence of random draws", "why_tests_cant": "A test cannot observe non-termination for all random draws.", "anchors": ["include/nil/crypto3/hash/detail/poseidon/poseidon_constants_generator.hpp:generate_mds_matrix"]}
{"id": "C41", "title": "Grain LFSR constant generation", "statement": "The 80-bit LFSR step is a bijection, never reaches the zero state from the initial state, the self-shrinking sampler always produces a bit within a bounded number of steps, the produced bit stream is the one of the Poseidon specification, and every generated constant is a reduced field element.", "quantifier": "every non-zero LFSR state, every modulus", "why_tests_cant": "2^80 states.", "anchors": ["include/nil/crypto3/hash/detail/poseidon/poseidon_constants_generator.hpp", "include/nil/crypto3/hash/detail/reinforced_concrete/reinforced_concrete_lfsr.hpp"]}
{"id": "C42", "title": "Requested Poseidon rate is the rate used", "statement": "poseidon_policy<Field, Security, Rate> absorbs Rate field elements per permutation, and permutes with the number of rounds published for that security and a state of Rate + 1 elements.", "quantifier": "every supported (security, rate) pair", "why_tests_cant": "The pair (128, 8) is never instantiated.", "anchors": ["include/nil/crypto3/hash/detail/poseidon/poseidon_policy.hpp"]}
{"id": "C43", "title": "Reinforced Concrete permutation is a bijection", "statement": "Bricks, Concrete and Bars are bijections of the state; digit decomposition followed by composition is the identity; each digit S-box maps its digit range to itself.", "quantifier": "every state", "why_tests_cant": "Infinite domain.", "anchors": ["include/nil/crypto3/hash/detail/reinforced_concrete/reinforced_concrete_operators.hpp"]}
{"id": "C44", "title": "CRC chunking independence and octet order", "statement": "A CRC computed through the stream interface equals the CRC register folded over the octets in order, for any chunking and any iterator category, and is serialised most significant octet first.", "quantifier": "every octet sequence and chunking, every CRC parameter set", "why_tests_cant": "Infinite domain.", "anchors": ["include/nil/crypto3/hash/crc.hpp", "include/nil/crypto3/hash/detail/crc/accumulator.hpp"]}
{"id": "C45", "title": "Fixed digest size and octet range", "statement": "Every digest has exactly digest_bits/8 octets, each below 256, for all block hashes.", "quantifier": "every message, every construction", "why_tests_cant": "Infinite domain.", "anchors": ["include/nil/crypto3/hash/detail/merkle_damgard_construction.hpp", "include/nil/crypto3/hash/detail/sponge_construction.hpp", "include/nil/crypto3/hash/detail/haifa_construction.hpp"]}
{"id": "C46", "title": "Pack conversions are lossless", "statement": "Packing between chunk widths and byte/bit orders preserves the bit stream and is undone by packing back with the orders and widths exchanged.", "quantifier": "every data array, every pair of endiannesses, every pair of chunk widths dividing the data", "why_tests_cant": "Infinite domain; 16 endianness pairs times all widths.", "anchors": ["docs/pack.md", "test/pack.cpp", "include/nil/crypto3/hash/detail/block_stream_processor.hpp"]}
{"id": "C47", "title": "All entry points agree", "statement": "The iterator, range, initializer-list, output-iterator, accumulator and range-adaptor forms of hash<H> return the same digest for the same data.", "quantifier": "every input sequence", "why_tests_cant": "Infinite domain.", "anchors": ["include/nil/crypto3/hash/algorithm/hash.hpp", "include/nil/crypto3/hash/hash_value.hpp", "include/nil/crypto3/hash/adaptor/hashed.hpp"]}
{"id": "C48", "title": "Tiger with a truncated digest", "statement": "tiger<128> and tiger<160> are the truncations of the 192-bit Tiger digest.", "quantifier": "every message", "why_tests_cant": "Only tiger<192> is instantiated in tests.", "anchors": ["include/nil/crypto3/hash/detail/tiger/basic_tiger_policy.hpp", "include/nil/crypto3/hash/tiger.hpp:process_block"]}
{"id": "C49", "title": "BLAKE2b mixing is invertible", "statement": "For a fixed message block and counter the twelve-round mixing of the sixteen working words is a bijection.", "quantifier": "every working state and block", "why_tests_cant": "2^1024 states.", "anchors": ["include/nil/crypto3/hash/detail/blake2b/blake2b_functions.hpp", "include/nil/crypto3/hash/blake2b.hpp"]}
{"id": "C50", "title": "Tiger and RIPEMD step functions are invertible for a fixed block", "statement": "For a fixed block the keyed part of the Tiger compression (before feed-forward) and each RIPEMD line are bijections of the chaining state.", "quantifier": "every state and block", "why_tests_cant": "2^192 .. 2^320 states.", "anchors": ["include/nil/crypto3/hash/detail/tiger/tiger_functions.hpp", "include/nil/crypto3/hash/detail/ripemd/ripemd_functions.hpp"]}
{"id": "C51", "title": "Taking a digest as an array", "statement": "Converting a hash result to an array of octets yields exactly the digest; no memory outside the array is touched and no element is left indeterminate, whatever the array's size.", "quantifier": "every message, every array size", "why_tests_cant": "The size is a template parameter chosen by the caller; tests use the right one.", "anchors": ["include/nil/crypto3/hash/hash_value.hpp: range_hash_impl::operator std::array"]}
{"id": "C52", "title": "CRC detects burst errors", "statement": "For a polynomial with a constant term, two messages of equal length that differ only within a window of at most as many bits as the register have different CRC digests.", "quantifier": "every message, every burst, every register width and odd polynomial", "why_tests_cant": "Infinite domain; tests compare a few check values.", "anchors": ["include/nil/crypto3/hash/crc.hpp", "include/nil/crypto3/hash/detail/crc/accumulator.hpp"]}
{"id": "C53", "title": "Poseidon constant tables are the published ones", "statement": "The round constants and matrices built into the library for BN254 and BLS12-381 (rates 2 and 4) are what the generation published with Poseidon gives: Grain LFSR, self-shrinking, rejection of values not below the modulus, Cauchy matrix from the following values.", "quantifier": "every entry of every table", "why_tests_cant": "A wrong constant changes every hash, but a test with a few vectors taken from the same code would not notice; the derivation needs thousands of LFSR steps.", "anchors": ["include/nil/crypto3/hash/detail/poseidon/original_constants.hpp"]}
{"id": "C54", "title": "Mapping a field element to the curve", "statement": "For every field element the map to BLS12-381's G1 or G2 returns a point of the curve y^2 = x^3 + 4 (respectively 4(1+i)): the isogenous image of the point of the simplified SWU map, and the identity if that point is in the isogeny's kernel.", "quantifier": "every field element u", "why_tests_cant": "The elements whose intermediate point is in the kernel are a handful among 2^381.", "anchors": ["include/nil/crypto3/hash/detail/h2c/h2c_functions.hpp: map_to_curve, iso_map"]}
{"id": "C55", "title": "Hash-to-curve results have prime order", "statement": "Every result of hashing to G1 or G2, multiplied by r, is the identity: the effective cofactors are those of the RFC.", "quantifier": "every pair of field elements, every map to the curve", "why_tests_cant": "A wrong digit in the 636-bit cofactor changes results that only have the test vectors to compare with.", "anchors": ["include/nil/crypto3/hash/detail/h2c/h2c_functions.hpp: ep_map, clear_cofactor", "include/nil/crypto3/hash/detail/h2c/h2c_suites.hpp: h_eff"]}
{"id": "C56", "title": "Hashing to a curve", "statement": "The result of hash-to-curve for a message fed in any pieces is the effective cofactor times the sum of the images of the two elements of hash_to_field of the message.", "quantifier": "every message, every division of it into ranges", "why_tests_cant": "Unbounded messages and divisions.", "anchors": ["include/nil/crypto3/hash/h2c.hpp: process", "include/nil/crypto3/hash/detail/h2c/h2c_functions.hpp: ep_map"]}
{"id": "C57", "title": "Assembly keeps its contract with the compiler", "statement": "After the inline assembly of a Keccak permutation every register that is neither an output nor on its clobber list holds what it held before, so that the surrounding code, and a second inlined call, still see their values.", "quantifier": "every state, every contents of the registers and of uninitialised memory", "why_tests_cant": "What breaks depends on how the compiler happens to allocate registers in each caller; a test exercises one allocation.", "anchors": ["include/nil/crypto3/hash/detail/keccak/keccak_x86_64_impl.hpp: permute", "include/nil/crypto3/hash/detail/keccak/keccak_armv8_impl.hpp: permute", "include/nil/crypto3/hash/detail/keccak/keccak_avx2_impl.hpp: permute"]}
{"id": "C58", "title": "MD4, MD5, SHA, SHA-1 and SHA-2 equal their standards", "statement": "For every octet string shorter than 2^61 octets the digests of md4, md5, sha, sha1 and sha2 with 224, 256, 384 and 512 bits are those of RFC 1320, RFC 1321, FIPS 180 and FIPS 180-4, provided the block cipher of crypto3-block performs the published steps: initial values, byte order, padding, feed-forward and truncation are right.", "quantifier": "every octet string, every division of memory, every cipher computing the published steps", "why_tests_cant": "Unbounded messages; vectors cover a few lengths.", "anchors": ["include/nil/crypto3/hash/md4.hpp", "include/nil/crypto3/hash/md5.hpp", "include/nil/crypto3/hash/sha.hpp", "include/nil/crypto3/hash/sha1.hpp", "include/nil/crypto3/hash/sha2.hpp", "include/nil/crypto3/hash/detail/sha2/sha2_policy.hpp: iv_generator", "include/nil/crypto3/hash/detail/davies_meyer_compressor.hpp"]}
{"id": "C59", "title": "Keccak digests are the same on every platform", "statement": "keccak_1600 gives the same digest of every octet string, Keccak's, whichever implementation of the permutation the processor and the build select, and whatever the registers and uninitialised memory hold at each call.", "quantifier": "every octet string, digest size, platform, contents of registers and memory at each call", "why_tests_cant": "A test runs on one machine; and digests that ignore part of the message still look random.", "anchors": ["include/nil/crypto3/hash/keccak.hpp: process_block", "include/nil/crypto3/hash/detail/keccak/keccak_functions.hpp: impl_type", "include/nil/crypto3/hash/detail/keccak/keccak_finalizer.hpp"]}
{"id": "C60", "title": "Hashing to BLS12-381 with the default parameters", "statement": "With default parameters h2f and h2c are RFC 9380's hash_to_field and hash_to_curve of the suites BLS12381G1_XMD:SHA-256_SSWU_RO_ and BLS12381G2_XMD:SHA-256_SSWU_RO_, under the domain separation tags QUUX-V01-CS02-with-<suite>: for every message, fed in any pieces, the digest is the element, or the point, the RFC defines.", "quantifier": "every message shorter than 2^60 octets, every division of it into ranges", "why_tests_cant": "The RFC has five test vectors for each suite; messages and the exceptional cases of the maps are unbounded.", "anchors": ["include/nil/crypto3/hash/h2f.hpp: h2f_default_params, h2f", "include/nil/crypto3/hash/h2c.hpp: h2c_default_params, h2c", "include/nil/crypto3/hash/detail/h2f/h2f_suites.hpp: h2f_suite", "include/nil/crypto3/hash/detail/h2c/h2c_suites.hpp: h2c_suite"]}
{"id": "C61", "title": "A collision of Pedersen hashes is a relation among the bases", "statement": "Two different messages of whole 3-bit groups with the same Pedersen hash yield, explicitly, integer coefficients, not all 0 modulo the order of the group, with which the base points combine to the neutral element. Messages that differ only in the zero bits that complete the last group have the same hash.", "quantifier": "every pair of messages, every group and every sequence of base points", "why_tests_cant": "Quantifies over all pairs of messages; colliding pairs cannot be found by tests.", "anchors": ["include/nil/crypto3/hash/pedersen.hpp: pedersen_to_point, pedersen", "include/nil/crypto3/hash/find_group_hash.hpp"]}
{"id": "C62", "title": "A collision of BLAKE2b digests is a collision of its compression function", "statement": "If two different octet strings have the same BLAKE2b digest then two of the calls of the compression function made while hashing them, which the theorem names, differ and agree in their result (in the digest's octets of it, for shorter digests).", "quantifier": "every pair of octet strings shorter than 2^64 octets", "why_tests_cant": "Quantifies over all pairs of messages.", "anchors": ["include/nil/crypto3/hash/blake2b.hpp", "include/nil/crypto3/hash/detail/blake2b/blake2b_policy.hpp", "include/nil/crypto3/hash/detail/haifa_construction.hpp"]}
{"id": "C63", "title": "Domain separation of expand_message_xmd", "statement": "If the outputs of expand_message_xmd for two different triples of message, domain separation tag and length agree in their first digest's worth of octets, then one of two explicit pairs of hash inputs is a collision of the underlying hash.", "quantifier": "every pair of messages, of tags of 16 to 255 octets, and of lengths accepted, every division of the messages into ranges", "why_tests_cant": "Quantifies over all pairs of messages and tags.", "anchors": ["include/nil/crypto3/hash/detail/h2f/h2f_functions.hpp: expand_message_xmd", "include/nil/crypto3/hash/h2f.hpp"]}
{"id": "C64", "title": "Poseidon's linear layer is MDS", "statement": "In every Poseidon instance for which the library has constants, two different states that agree in all but k of their t words go, through the linear layer and through every full or partial round, to states that differ in at least t + 1 - k words; a difference in one word reaches all words in one round.", "quantifier": "every instance with tables, every round, every pair of states", "why_tests_cant": "Quantifies over all pairs of states over 255-bit fields; a table with one singular submatrix passes every test vector made from it.", "anchors": ["include/nil/crypto3/hash/detail/poseidon/original_constants.hpp", "include/nil/crypto3/hash/detail/poseidon/kimchi_constants.hpp", "include/nil/crypto3/hash/detail/poseidon/poseidon_round_operator.hpp", "include/nil/crypto3/hash/detail/poseidon/poseidon_constants.hpp: product_with_mds_matrix"]}
{"id": "C65", "title": "A collision of sponge digests is a collision of the sponge", "statement": "If two different octet strings have the same SHA-3 or Keccak digest, or one has a SHA-3 digest equal to a Keccak digest of the same size of any octet string, itself included, then either two different final states are squeezed to the same digest or two different sequences of blocks lead to states with the same capacity part; the states are those after all blocks and those before the last block.", "quantifier": "every pair of octet strings shorter than 2^64 bits, every digest size for which the rate is a whole number of words, every mix of the two hashes", "why_tests_cant": "Quantifies over all pairs of messages.", "anchors": ["include/nil/crypto3/hash/sha3.hpp", "include/nil/crypto3/hash/keccak.hpp", "include/nil/crypto3/hash/detail/sha3/sha3_padding.hpp", "include/nil/crypto3/hash/detail/keccak/keccak_padding.hpp", "include/nil/crypto3/hash/detail/sponge_construction.hpp"]}
{"id": "C66", "title": "CRC-32 and two-bit errors", "statement": "Two messages that differ in exactly two bits have the same PNG CRC-32 digest if and only if the distance of the bits is a multiple of 2^32 - 1; every two-bit error in a message of at most 2^32 - 1 bits is detected.", "quantifier": "every pair of octet strings that differ in two bits, at any distance", "why_tests_cant": "The distances and messages are unbounded; the first undetected error needs a message of half a gigabyte.", "anchors": ["include/nil/crypto3/hash/crc.hpp: crc32_png, basic_crc", "include/nil/crypto3/hash/detail/crc/accumulator.hpp"]}
{"id": "C67", "title": "CRCs are affine", "statement": "For every CRC, the digest of the exclusive or of three messages of one length is the exclusive or of their three digests.", "quantifier": "every parameter set, every three octet strings of one length", "why_tests_cant": "Quantifies over all messages and parameter sets.", "anchors": ["include/nil/crypto3/hash/crc.hpp: basic_crc, crc", "include/nil/crypto3/hash/detail/crc/accumulator.hpp"]}
{"id": "C68", "title": "The Keccak assembly runs in constant time", "statement": "Each assembly permutation executes the same instructions, reads and writes the same addresses and takes the same branches whatever the state it permutes: one fixed record of these is the record of every run.", "quantifier": "every state, every initial value of the registers and of the uninitialised memory, every choice of registers for the operands", "why_tests_cant": "Quantifies over all 2^1600 states; a data-dependent address or branch changes no digest and so no test.", "anchors": ["include/nil/crypto3/hash/detail/keccak/keccak_x86_64_impl.hpp", "include/nil/crypto3/hash/detail/keccak/keccak_armv8_impl.hpp", "include/nil/crypto3/hash/detail/keccak/keccak_avx2_impl.hpp", "include/nil/crypto3/hash/detail/keccak/keccak_avx512_impl.hpp"]}
{"id": "C69", "title": "Messages of 2^64 bits and more", "statement": "The digest of a message of any length is the one its standard defines (for MD4, MD5 and RIPEMD: with the length modulo 2^64 in the length field).", "quantifier": "every octet string, of any length, every Merkle-Damgard hash, SHA-3, Keccak and BLAKE2b", "why_tests_cant": "The first such message has 2^61 octets; no test can hash it.", "anchors": ["include/nil/crypto3/hash/accumulators/hash.hpp: process, total_seen", "include/nil/crypto3/hash/detail/merkle_damgard_construction.hpp", "include/nil/crypto3/hash/detail/sponge_construction.hpp", "include/nil/crypto3/hash/detail/haifa_construction.hpp"]}
{"id": "C70", "title": "Every segment of a Pedersen message has its own base point", "statement": "The Pedersen hash of a message of any length is the sum over its segments, each multiplied with the base point generated from its own number, so that segments cannot change places.", "quantifier": "every bit string shorter than 2^64 bits, with any number of segments, every group and base-point generator", "why_tests_cant": "The first message with more than 2^32 segments has 2^32 * 189 bits.", "anchors": ["include/nil/crypto3/hash/pedersen.hpp: update_new_segment, hash<base_point_generator>"]}
{"id": "C71", "title": "Length extension", "statement": "With MD4, MD5, SHA, SHA-1, SHA-256, SHA-512, RIPEMD-128/160/256/320 and Tiger/192, from the digest and the length of a message alone one can compute the digest of the message followed by its padding and any further octets; so hash(secret, message) authenticates nothing, and a collision of two messages of one length continues with every suffix.", "quantifier": "every message, every continuation, every digest and every content of the message", "why_tests_cant": "Quantifies over all messages, also those whose digest alone is known.", "anchors": ["include/nil/crypto3/hash/accumulators/hash.hpp", "include/nil/crypto3/hash/detail/merkle_damgard_construction.hpp: process, digest", "include/nil/crypto3/hash/detail/merkle_damgard_padding.hpp", "include/nil/crypto3/hash/detail/tiger/tiger_padding.hpp", "include/nil/crypto3/hash/sha2.hpp", "include/nil/crypto3/hash/ripemd.hpp", "include/nil/crypto3/hash/tiger.hpp"]}
{"id": "C72", "title": "Digests are the same on machines of either byte order", "statement": "A program that hashes octets gets the same digests on a big-endian machine as on a little-endian one, with every hash and every order of updates and extractions; a program that hashes wider integers does too.", "quantifier": "every hash construction, every history of updates and extractions, both machine byte orders", "why_tests_cant": "The tests run on one machine.", "anchors": ["include/nil/crypto3/hash/detail/block_stream_processor.hpp:process_block", "docs/pack.md", "test/find_group_hash.cpp"]}
{"id": "C73", "title": "The default Pedersen hash uses the base points of the Zcash construction", "statement": "pedersen_to_point with its default parameters returns the sum of the message's segments with the base points FindGroupHash(\"Zcash_PH\", URS, i), where i is the number of the segment as four octets, least significant first, the hash inside FindGroupHash is SHA-256, and segments have 63 chunks.", "quantifier": "every bit string of at most 2^32 segments fed in any pieces, every group with the laws of Jubjub's, every content of uninitialised memory", "why_tests_cant": "The tests hash messages of a few lengths, of at most 20 segments; the base points of the others are never compared.", "anchors": ["include/nil/crypto3/hash/pedersen.hpp:pedersen_to_point", "include/nil/crypto3/hash/find_group_hash.hpp", "include/nil/crypto3/hash/sha2.hpp", "include/nil/crypto3/hash/detail/pedersen/basic_functions.hpp"]}
{"id": "C74", "title": "Taking a CRC as an integer", "statement": "A CRC requested as an integer of its width (std::uint32_t c = hash<crc32_png>(range)) is the checksum.", "quantifier": "every CRC, every octet string, every iterator category", "why_tests_cant": "The tests only take CRCs as octets and strings.", "anchors": ["include/nil/crypto3/hash/hash_value.hpp:operator Integral", "include/nil/crypto3/hash/crc.hpp:digest", "docs/pack.md"]}
{"id": "C75", "title": "Accumulators are values", "statement": "In a program that creates, feeds, copies and reads several accumulators in any order, each digest is that of the octets fed to that accumulator (and, up to the copy, to the one it was copied from); no call on one accumulator changes the digest of another. Taking digests from copies therefore works even for the hashes whose own extraction disturbs the accumulator (hash-to-field, hash-to-curve, Pedersen).", "quantifier": "every block hash, every CRC, every hash-to-field and hash-to-curve suite, find_group_hash, every Pedersen instance; every finite program of creations, updates, extractions and copies over any number of accumulators", "why_tests_cant": "It quantifies over all interleavings and copies; tests use one accumulator at a time and never copy one.", "anchors": ["include/nil/crypto3/hash/accumulators/hash.hpp:hash_impl", "include/nil/crypto3/hash/h2f.hpp", "include/nil/crypto3/hash/h2c.hpp", "include/nil/crypto3/hash/find_group_hash.hpp", "include/nil/crypto3/hash/pedersen.hpp:internal_accumulator_type"]}
{"id": "C76", "title": "A checksum after the message is recognised by one fixed digest", "statement": "For a CRC of whole octets whose polynomial has a constant term and that reflects both or neither of input and result, there is one digest (the residue) that a message followed by W/8 octets has exactly when those octets are the message's CRC: the digest, or its octets in reverse if the CRC is reflected. For crc32_png the residue is 21 44 df 1c.", "quantifier": "every such CRC, every octet string, every trailer, every iterator category", "why_tests_cant": "It is an equivalence over all messages and all trailers; no test can show that no wrong trailer is accepted.", "anchors": ["include/nil/crypto3/hash/crc.hpp:crc, crc32_png", "include/nil/crypto3/hash/detail/crc/accumulator.hpp"]}
{"id": "C77", "title": "Hash-to-field is unbiased", "statement": "The field elements that hash-to-field returns are those of the octets that expand_message_xmd returns, each coordinate taken from L octets of its own. If p 2^k <= 256^L, every list of elements comes from at least q^(count m) and at most (q+1)^(count m) strings of octets, with q = floor(256^L / p) >= 2^k; the BLS12-381 suites have k = 128 and L = ceil((ceil(log2 p) + k) / 8).", "quantifier": "every hash, history, modulus, extension degree, L and count; every list of field elements", "why_tests_cant": "It counts preimages of every list of field elements, of which there are more than 2^380.", "anchors": ["include/nil/crypto3/hash/h2f.hpp", "include/nil/crypto3/hash/detail/h2f/h2f_suites.hpp", "include/nil/crypto3/hash/detail/h2f/h2f_functions.hpp"]}
{"id": "C78", "title": "Few field elements map to one point", "statement": "At most 18 field elements are mapped to one point of G2, and at most 66 to one point of G1 (126 to the point the code substitutes for the identity), so over uniform field elements no point is likelier than 18/q^2, 66/q or 126/q.", "quantifier": "every point, every set of field elements, every implementation of the field's methods that meets its contract", "why_tests_cant": "It counts preimages of every point among more than 2^380 field elements.", "anchors": ["include/nil/crypto3/hash/detail/h2c/h2c_functions.hpp:m2c_simple_swu, iso_map", "include/nil/crypto3/hash/detail/h2c/h2c_suites.hpp"]}
{"id": "C79", "title": "A collision of digests is a collision of the published compression function", "statement": "If two different messages have the same MD4, MD5, SHA, SHA-1, SHA-256, SHA-512, RIPEMD or Tiger/192 digest, then among the calls of the published compression function that the published hash makes for them there are two with different arguments and the same result. For SHA-224 and SHA-384 the other possibility is that the two final states agree only in the part that is kept.", "quantifier": "every pair of octet strings below 2^64 bits, every content of uninitialised memory, every block cipher that meets its contract", "why_tests_cant": "No test can show that there is no other way to collide, such as two messages with one padded form.", "anchors": ["include/nil/crypto3/hash/md4.hpp", "include/nil/crypto3/hash/md5.hpp", "include/nil/crypto3/hash/sha.hpp", "include/nil/crypto3/hash/sha1.hpp", "include/nil/crypto3/hash/sha2.hpp", "include/nil/crypto3/hash/ripemd.hpp", "include/nil/crypto3/hash/tiger.hpp", "include/nil/crypto3/hash/detail/merkle_damgard_construction.hpp", "include/nil/crypto3/hash/detail/merkle_damgard_padding.hpp"]}
{"id": "C80", "title": "Every hash of the library, in any program, is the function it is published as", "statement": "MD4, MD5, SHA, SHA-1, SHA-224/256/384/512, RIPEMD-128/160/256/320, Tiger/192, SHA-3, Keccak and BLAKE2b (RFC 7693, unless the length is a positive multiple of 128 octets: C21) give the published digest of the octets fed, through every entry point, and in every program that uses accumulators of any of these hashes side by side, feeds them octets or wider values that divide their words, copies and reads them in any order. The digest always has the published size, and expand_message_xmd and hash_to_field over any of these hashes are RFC 9380's over the published function.", "quantifier": "every hash named, every message below 2^64 bits, every division into ranges, every program over any number of accumulators, every content of uninitialised memory", "why_tests_cant": "Tests hash a few messages with one hash and one accumulator at a time.", "anchors": ["include/nil/crypto3/hash/md4.hpp", "include/nil/crypto3/hash/md5.hpp", "include/nil/crypto3/hash/sha.hpp", "include/nil/crypto3/hash/sha1.hpp", "include/nil/crypto3/hash/sha2.hpp", "include/nil/crypto3/hash/ripemd.hpp", "include/nil/crypto3/hash/tiger.hpp", "include/nil/crypto3/hash/sha3.hpp", "include/nil/crypto3/hash/keccak.hpp", "include/nil/crypto3/hash/blake2b.hpp", "include/nil/crypto3/hash/accumulators/hash.hpp", "include/nil/crypto3/hash/algorithm/hash.hpp"]}
{"id": "C81", "title": "Threads with accumulators of their own do not interfere", "statement": "Any number of threads create, feed, copy and read accumulators, each its own, with updates preempted between any two values. Whatever the order of their turns, no turn fails, and each thread is given, digest by digest, what it would be given alone; it is given all of it once it has had a number of turns that depends on its own calls only. For the hashes of C80 and the CRCs these are the published digests.", "quantifier": "every program of any number of threads, every schedule, every block hash, CRC, hash-to-field and hash-to-curve suite, find_group_hash and Pedersen instance", "why_tests_cant": "It quantifies over all schedules; the tests have one thread.", "anchors": ["include/nil/crypto3/hash/accumulators/hash.hpp", "include/nil/crypto3/hash/hash_value.hpp", "include/nil/crypto3/hash/detail/block_stream_processor.hpp", "include/nil/crypto3/hash/detail/crc/accumulator.hpp", "include/nil/crypto3/hash/pedersen.hpp", "include/nil/crypto3/hash/detail/h2f/h2f_functions.hpp"]}
{"id": "C82", "title": "Threads may read one accumulator", "statement": "Several threads may take digests and copies of an accumulator that none of them feeds (extraction is const): each gets what it would get alone.", "quantifier": "every program of any number of threads, every schedule, every kind of accumulator", "why_tests_cant": "It quantifies over all schedules; the tests have one thread.", "anchors": ["include/nil/crypto3/hash/accumulators/hash.hpp:result", "include/nil/crypto3/hash/h2f.hpp", "include/nil/crypto3/hash/pedersen.hpp"]}
{"id": "C83", "title": "When reading a range fails, what was read has been hashed and nothing else", "statement": "If an iterator throws while a range is fed to an accumulator, the accumulator is left as if the range had ended there: a program that catches the exception and goes on gets the digests of the values read, with no value lost (also those still buffered) and none fed twice. An entry point that writes its digest to an output iterator writes nothing in that case.", "quantifier": "every point at which reading can fail, every block hash, CRC, hash-to-field and Pedersen instance, every width of values, every program of accumulators that catches the exceptions", "why_tests_cant": "It ranges over all crash points in all ranges; the tests have no failing iterator.", "anchors": ["include/nil/crypto3/hash/hash_value.hpp:range_hash_impl, itr_hash_impl", "include/nil/crypto3/hash/detail/block_stream_processor.hpp:~block_stream_processor", "include/nil/crypto3/hash/algorithm/hash.hpp", "include/nil/crypto3/hash/pedersen.hpp:update", "include/nil/crypto3/hash/crc.hpp:crc_stream_processor"]}
{"id": "C84", "title": "Construction objects can be used directly, reset, and continued from saved states", "statement": "A caller who builds the block construction of a hash, gives it the whole blocks of a message with process_block and the rest with digest (in a block whose unused part may hold anything) gets the published digest. reset() makes an object as new whatever it did before, also after digest. b.reset(a.state()) makes b continue the message of a, so that a common prefix can be processed once and finished in many ways. Copies are independent.", "quantifier": "every hash of the library, every program over any number of objects, every message below 2^64 bits, every content of unused parts of blocks", "why_tests_cant": "Tests use the constructions only through accumulators, and no test saves a state; the claim ranges over all programs and prefixes.", "anchors": ["include/nil/crypto3/hash/detail/merkle_damgard_construction.hpp:digest, reset, state", "include/nil/crypto3/hash/detail/sponge_construction.hpp:digest, reset, state", "include/nil/crypto3/hash/detail/haifa_construction.hpp:digest, reset, state"]}
{"id": "C85", "title": "Poseidon sponges are values", "statement": "A program may create any number of Poseidon sponges, absorb, squeeze and copy them in any order: each squeeze gives the element that the elements absorbed by that sponge since its last squeeze, chained to what it was last squeezed to, determine; a copy continues on its own. Threads with sponges of their own do not interfere, whatever the schedule. The reference squeeze returns reads the squeezed element until more than rate elements are absorbed, and then the chaining element.", "quantifier": "every program over any number of sponges, every schedule of any number of threads, every element, every policy with capacity 1 and every table of the library", "why_tests_cant": "Tests use one sponge, in one thread, and take the value at once.", "anchors": ["include/nil/crypto3/hash/detail/poseidon/poseidon_sponge.hpp:absorb, squeeze", "include/nil/crypto3/hash/detail/poseidon/poseidon_policy.hpp"]}
{"id": "C86", "title": "Which CRCs detect every odd number of flipped bits", "statement": "If the generator polynomial given to the crc template has an even number of terms (counting the leading one), two messages of one length have digests that differ in an odd number of bits exactly when the messages do, so any odd number of flipped bits changes the digest. If it has an odd number of terms, as that of crc32_png, every message longer than the digest has a twin of the same length and digest that differs from it in an odd number of bits.", "quantifier": "every polynomial, width, initial value, final xor and reflection, every pair of messages of one length, every iterator category", "why_tests_cant": "It ranges over all messages and all sets of flipped bits; tests compare a few check values of one polynomial.", "anchors": ["include/nil/crypto3/hash/crc.hpp:basic_crc, crc", "include/nil/crypto3/hash/detail/crc/accumulator.hpp"]}
{"id": "C87", "title": "What Merkle-Damgard objects return when reset is forgotten, or digest is not the end", "statement": "In every program over construction objects of MD4, MD5, SHA, SHA-1, SHA-2, RIPEMD and Tiger, also one that calls digest twice, goes on after digest, saves states after digest or passes wrong counts, each digest is the published chaining, from the published initial value, of the octets given to that object since its creation, reset or copy, where each earlier digest counts for the part of its block it used, the marker, the zeros and the length it put there. So a message hashed without reset has the last chaining value of the one before as initial value, and a caller who goes on counting after digest gets the digest of the padded first message followed by the second.", "quantifier": "every program over any number of objects, every order of calls, every block and every count of whole octets below 2^64, every pair of messages", "why_tests_cant": "Tests reset, or use each object once; the claim ranges over all misuses, whose results no test vector gives.", "anchors": ["include/nil/crypto3/hash/detail/merkle_damgard_construction.hpp:process_block, digest, reset, state", "include/nil/crypto3/hash/detail/davies_meyer_compressor.hpp", "include/nil/crypto3/hash/ripemd.hpp", "include/nil/crypto3/hash/tiger.hpp"]}
{"id": "C88", "title": "What SHA-3 and Keccak objects return when reset is forgotten, or digest is not the end", "statement": "In every program over construction objects of SHA-3 and keccak_1600, also one that calls digest twice, goes on after digest, saves states after digest or passes wrong counts, each digest is squeezed from a 1600-bit state that process_block changes by absorbing its block, digest by absorbing the used part of its block with suffix and padding, and which digest then leaves as the words of the digest followed by zeros. So, for digest sizes that are multiples of 64 up to 512, a message not shorter than a digest and hashed without reset gets H(m2 xor H(m1)), the first digest added to its first octets, and for every other first message there is a second one of the same length with the same second digest.", "quantifier": "every program over any number of objects, every order of calls, every block and every count of whole octets below 2^64, every digest size the library allows, every pair of messages", "why_tests_cant": "Tests reset, or use each object once; the claim ranges over all misuses, whose results no test vector gives.", "anchors": ["include/nil/crypto3/hash/detail/sponge_construction.hpp:process_block, digest, reset, state", "include/nil/crypto3/hash/detail/keccak/keccak_finalizer.hpp", "include/nil/crypto3/hash/keccak.hpp", "include/nil/crypto3/hash/sha3.hpp"]}
{"id": "C89", "title": "What BLAKE2b objects return when reset is forgotten, digest is not the end, or states are passed on", "statement": "In every program over construction objects of blake2b, also one that calls digest twice, goes on after digest, passes wrong counts or states saved at any moment, each digest is the front of an eight-word state that process_block changes by the compression function of RFC 7693 with the octets counted, digest by compressing the used part of its block followed by zeros as the last one (a full block first also as one that is not the last), and to which reset(state) adds the parameter word. So a message hashed without reset has the state after the one before in place of the initial one, and a state passed on twice, from a to b and from b to c, makes c a copy of a.", "quantifier": "every program over any number of objects, every order of calls, every block and every count below 2^64 (whole octets for digest), every digest size up to 512 bits, every pair of messages", "why_tests_cant": "Tests reset, or use each object once, and save no states; the claim ranges over all misuses, whose results no test vector gives.", "anchors": ["include/nil/crypto3/hash/detail/haifa_construction.hpp:process_block, digest, reset, state", "include/nil/crypto3/hash/detail/blake2b/blake2b_padding.hpp", "include/nil/crypto3/hash/blake2b.hpp:blake2b_compressor"]}
