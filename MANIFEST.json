{
 "claims": [
  {
   "property": "C01",
   "status": "proved",
   "theorems": [
    "C01_md_digest",
    "C01_md_digest_octets",
    "C01_tiger_marker_digest_octets"
   ],
   "note": ""
  },
  {
   "property": "C02",
   "status": "proved",
   "theorems": [
    "C02_chunking_md",
    "C02_pieces_equal_one_call_md",
    "C02_C03_pieces_sponge",
    "C02_pieces_equal_one_call_sponge",
    "C02_C03_pieces_blake2b",
    "C02_pieces_equal_one_call_blake2b",
    "C02_C03_pieces_tiger",
    "C02_pieces_equal_one_call_tiger"
   ],
   "note": ""
  },
  {
   "property": "C03",
   "status": "proved",
   "theorems": [
    "C03_element_width_md",
    "C03_wide_elements_as_octets_md",
    "C02_C03_pieces_sponge",
    "C03_wide_elements_sponge",
    "C02_C03_pieces_blake2b",
    "C03_wide_elements_blake2b",
    "C03_wide_elements_tiger"
   ],
   "note": "the pack library is external: that pack_to reads wide values in the machine's byte order is taken from the vectors of test/find_group_hash.cpp and test/pedersen.cpp, which hold only so"
  },
  {
   "property": "C04",
   "status": "proved",
   "theorems": [
    "C04_extraction_repeatable_md",
    "C04_extraction_repeatable_sponge",
    "C04_extraction_repeatable_blake2b",
    "C04_extraction_repeatable_tiger"
   ],
   "note": ""
  },
  {
   "property": "C05",
   "status": "partial",
   "theorems": [
    "C05_no_stale_memory_md",
    "C05_C06_octet_feeds_sponge_partial",
    "C05_stale_bits_sponge_refuted",
    "C06_bit_feeds_sponge_partial",
    "C05_no_stale_memory_blake2b",
    "C05_C06_octet_feeds_tiger_partial",
    "C06_bit_feeds_tiger_partial",
    "C06_tiger_marker_overrun_refuted"
   ],
   "note": "Merkle-Damgard and BLAKE2b: full; sponge: false for bit counts that are not a multiple of 8, C06_bit_feeds_sponge_partial says which bits come from memory; Tiger: every bit length for which the code defines a digest"
  },
  {
   "property": "C06",
   "status": "partial",
   "theorems": [
    "C06_bit_exact_block_feeds_md",
    "C05_C06_octet_feeds_sponge_partial",
    "C06_bit_feeds_sponge_partial",
    "C06_bit_exact_block_feeds_blake2b",
    "C05_C06_octet_feeds_tiger_partial",
    "C06_bit_feeds_tiger_partial",
    "C06_tiger_marker_overrun_refuted"
   ],
   "note": "Merkle-Damgard and BLAKE2b: full; sponge: whole octets; for other bit counts the digest is that of another string, stated exactly (see C14); Tiger: every bit length except 505 to 511 modulo 512, where the padding overruns the block (refuted)"
  },
  {
   "property": "C07",
   "status": "partial",
   "theorems": [
    "C07_word_feeds_refuted",
    "C07_word_feeds_partial",
    "C07_every_history_md_partial",
    "C07_every_history_tiger_partial",
    "C07_every_history_sponge_partial",
    "C07_every_history_sponge_bits_partial",
    "C07_every_history_blake2b_partial",
    "C07_nothing_forgotten_blake2b"
   ],
   "note": "false of the code: a block completed by word feeds is lost when anything follows; C07_word_feeds_partial covers all other histories, the every_history theorems give the digest after every history for every construction"
  },
  {
   "property": "C08",
   "status": "partial",
   "theorems": [
    "C08_bits_count_refuted",
    "C08_bits_count_partial",
    "C08_every_history_partial"
   ],
   "note": "false of the code when the bit count is omitted; true when it is given; C08_every_history_partial gives both counters after every history"
  },
  {
   "property": "C09",
   "status": "proved",
   "theorems": [
    "C09_padding_injective",
    "C09_blocks_differ",
    "C09_collision_resistance_preserved",
    "C09_digest_collision"
   ],
   "note": ""
  },
  {
   "property": "C10",
   "status": "proved",
   "theorems": [
    "C10_compression_calls"
   ],
   "note": ""
  },
  {
   "property": "C12",
   "status": "proved",
   "theorems": [
    "C12_sha3_fips202"
   ],
   "note": ""
  },
  {
   "property": "C13",
   "status": "proved",
   "theorems": [
    "C13_keccak"
   ],
   "note": ""
  },
  {
   "property": "C14",
   "status": "partial",
   "theorems": [
    "C14_bit_strings_collide_refuted",
    "C14_overrun_refuted",
    "C14_octet_padding_injective_partial",
    "C06_bit_feeds_sponge_partial"
   ],
   "note": "false of the code: bit-level messages collide and overrun; true on whole octets; C06_bit_feeds_sponge_partial gives the digest, or the overrun, for every number of bits"
  },
  {
   "property": "C15",
   "status": "proved",
   "theorems": [
    "C15_permute_fips202"
   ],
   "note": ""
  },
  {
   "property": "C16",
   "status": "proved",
   "theorems": [
    "C16_permute_injective",
    "C16_permute_surjective"
   ],
   "note": ""
  },
  {
   "property": "C21",
   "status": "partial",
   "theorems": [
    "C21_blake2b_rfc7693_partial",
    "C21_blake2b_whole_blocks_refuted",
    "C21_blake2b_all_lengths_partial"
   ],
   "note": "false of the code for messages of positive length divisible by 128 octets (last block compressed twice); true for all others"
  },
  {
   "property": "C49",
   "status": "proved",
   "theorems": [
    "C49_mixing_injective",
    "C49_mixing_surjective",
    "C49_mixing_closed"
   ],
   "note": ""
  },
  {
   "property": "C23",
   "status": "proved",
   "theorems": [
    "C23_davies_meyer",
    "C23_matyas_meyer_oseas",
    "C23_miyaguchi_preneel"
   ],
   "note": ""
  },
  {
   "property": "C24",
   "status": "partial",
   "theorems": [
    "C24_digest_info_partial",
    "C24_malformed_refuted",
    "C24_sha0_names_sha1_refuted"
   ],
   "note": "false of the code for SHA-256, SHA-512, RIPEMD-128/256/320 (malformed) and SHA-0 (names SHA-1); true for the other published prefixes"
  },
  {
   "property": "C25",
   "status": "proved",
   "theorems": [
    "C25_pow",
    "C25_pow_unsigned"
   ],
   "note": ""
  },
  {
   "property": "C26",
   "status": "proved",
   "theorems": [
    "C26_strxor",
    "C26_strxor_twice"
   ],
   "note": ""
  },
  {
   "property": "C45",
   "status": "proved",
   "theorems": [
    "C45_digest_size_md",
    "C45_digest_size_sponge",
    "C45_digest_size_blake2b"
   ],
   "note": ""
  },
  {
   "property": "C46",
   "status": "proved",
   "theorems": [
    "C46_pack_round_trip",
    "C46_pack_octets_to_words"
   ],
   "note": "chunk widths that are whole octets"
  },
  {
   "property": "C47",
   "status": "proved",
   "theorems": [
    "C47_entry_points_md",
    "C47_entry_points_sponge",
    "C47_entry_points_blake2b"
   ],
   "note": ""
  },
  {
   "property": "C51",
   "status": "partial",
   "theorems": [
    "C51_small_array_overflows_refuted",
    "C51_large_array_uninitialised_refuted",
    "C47_entry_points_md"
   ],
   "note": "false of the code for sizes other than the digest's; for the digest's own size see object_is in C47"
  },
  {
   "property": "C11",
   "status": "proved",
   "theorems": [
    "C11_tiger_compression",
    "C11_tiger_digest"
   ],
   "note": ""
  },
  {
   "property": "C22",
   "status": "proved",
   "theorems": [
    "C22_ripemd128_compression",
    "C22_ripemd128_digest",
    "C22_ripemd160_compression",
    "C22_ripemd160_digest",
    "C22_ripemd256_compression",
    "C22_ripemd256_digest",
    "C22_ripemd320_compression",
    "C22_ripemd320_digest"
   ],
   "note": ""
  },
  {
   "property": "C48",
   "status": "partial",
   "theorems": [
    "C48_truncated_tiger_refuted",
    "C48_longer_tiger_partial"
   ],
   "note": "false of the code: the truncated variants do not compile; longer widths append zero octets"
  },
  {
   "property": "C50",
   "status": "proved",
   "theorems": [
    "C50_ripemd128_lines",
    "C50_ripemd160_lines",
    "C50_ripemd256_lines",
    "C50_ripemd320_lines",
    "C50_tiger_passes",
    "C50_tiger_key_schedule"
   ],
   "note": ""
  },
  {
   "property": "C44",
   "status": "proved",
   "theorems": [
    "C44_crc_history",
    "C44_crc_digest",
    "C44_end_message"
   ],
   "note": ""
  },
  {
   "property": "C52",
   "status": "proved",
   "theorems": [
    "C52_crc_detects_bursts"
   ],
   "note": ""
  },
  {
   "property": "C27",
   "status": "proved",
   "theorems": [
    "C27_expand_message_xmd",
    "C27_accepted",
    "C27_sponge_hashes",
    "C27_md_hashes",
    "C27_blake2b"
   ],
   "note": ""
  },
  {
   "property": "C28",
   "status": "partial",
   "theorems": [
    "C28_stays_inside_refuted",
    "C28_stays_inside_partial"
   ],
   "note": "false of the code for lengths that are not positive multiples of the digest size; true for the others"
  },
  {
   "property": "C29",
   "status": "proved",
   "theorems": [
    "C29_hash_to_field",
    "C29_coordinates_in_range"
   ],
   "note": "for expanded lengths that are multiples of the digest size; the marshalling library and the modular type are assumed to read a big-endian number and reduce it"
  },
  {
   "property": "C30",
   "status": "partial",
   "theorems": [
    "C30_repeatable_refuted",
    "C30_histories_partial",
    "C30_h2f_histories_partial",
    "C30_h2c_histories_partial",
    "C30_pedersen_repeatable_refuted",
    "C30_pedersen_histories_partial",
    "C30_pedersen_bits_histories_partial"
   ],
   "note": "false of the code: an extraction absorbs its own suffix (or, for Pedersen, adds its last segment for good); the theorems say what later extractions return"
  },
  {
   "property": "C33",
   "status": "proved",
   "theorems": [
    "C33_pedersen_to_point",
    "C33_pedersen"
   ],
   "note": ""
  },
  {
   "property": "C34",
   "status": "proved",
   "theorems": [
    "C34_chunks_per_base_point",
    "C34_value_largest",
    "C34_encodings_differ",
    "C34_encodings_nonzero"
   ],
   "note": ""
  },
  {
   "property": "C35",
   "status": "partial",
   "theorems": [
    "C35_first_valid_partial",
    "C35_published_value_partial",
    "C35_terminates_refuted",
    "C35_small_order_refuted"
   ],
   "note": "false of the code when no candidate decodes (endless loop) or the first one has small order (abort); true otherwise"
  },
  {
   "property": "C36",
   "status": "proved",
   "theorems": [
    "C36_calls",
    "C36_hash_range",
    "C36_hash_range_initial",
    "C36_hash_element_initial",
    "C36_hash_element",
    "C36_original_instances",
    "C36_mina_instances"
   ],
   "note": ""
  },
  {
   "property": "C37",
   "status": "partial",
   "theorems": [
    "C37_trailing_zero_refuted",
    "C37_same_length_partial",
    "C37_collision_partial"
   ],
   "note": "False of the code: a sequence and the same sequence with a zero element added to an unfilled group hash alike. Proved: that is the only way, up to a collision in (or a zero of) the last word of the permutation."
  },
  {
   "property": "C38",
   "status": "partial",
   "theorems": [
    "C38_packing_partial",
    "C38_packing_initial_partial",
    "C38_injective_partial",
    "C38_leading_zero_refuted",
    "C38_wide_words_refuted"
   ],
   "note": "False of the code for 32- and 64-bit words (1 << 32 in an int is undefined) and for containers of different lengths (leading zero words vanish). Proved for words of fewer than 32 bits; injective on containers of equal length."
  },
  {
   "property": "C39",
   "status": "proved",
   "theorems": [
    "C39_original_permutation",
    "C39_mina_permutation",
    "C39_original_bijection",
    "C39_mina_bijection",
    "C39_original_instances",
    "C39_mina_instances"
   ],
   "note": ""
  },
  {
   "property": "C40",
   "status": "partial",
   "theorems": [
    "C40_generation_ends_refuted",
    "C40_draws_partial"
   ],
   "note": "False of the code: every entry of row i is 1 / (x_i - y_i), so every candidate is singular and the loop never ends, whatever is drawn. C40_draws_partial: exactly the draws of pairwise different elements reach the determinant."
  },
  {
   "property": "C41",
   "status": "partial",
   "theorems": [
    "C41_step_bijection",
    "C41_step_is_grain",
    "C41_never_zero",
    "C41_sampler_bounded",
    "C41_constants_of_stream",
    "C41_constants_reduced",
    "C41_constants_complete",
    "C41_reinforced_concrete_of_stream",
    "C41_reinforced_concrete_reduced",
    "C41_reinforced_concrete_complete",
    "C41_generator_gives_table_refuted"
   ],
   "note": "Everything holds except that the initial state codes the S-box as 1 where the published generation has 0, so the generator does not reproduce the library's own tables."
  },
  {
   "property": "C42",
   "status": "partial",
   "theorems": [
    "C42_rate_partial",
    "C42_rounds_published",
    "C42_degree_margin",
    "C42_rate_8_refuted"
   ],
   "note": "False of the code for security 128 and rate 8, which gives a policy of rate 4 without tables; proved for all other pairs."
  },
  {
   "property": "C53",
   "status": "proved",
   "theorems": [
    "C53_bn254_rate_2",
    "C53_bn254_rate_4",
    "C53_bls12_381_rate_2",
    "C53_bls12_381_rate_4"
   ],
   "note": ""
  },
  {
   "property": "C43",
   "status": "partial",
   "theorems": [
    "C43_decompose",
    "C43_digits_unique",
    "C43_compose_decompose",
    "C43_bricks",
    "C43_bricks_bijection",
    "C43_concrete",
    "C43_concrete_bijection",
    "C43_matrix_refuted",
    "C43_bars_partial",
    "C43_sbox_range_refuted",
    "C43_bars_injective_refuted",
    "C43_permute_injective_refuted",
    "C43_permute_layers"
   ],
   "note": "Bricks, Concrete and the decomposition are proved. False of the code: digits are inverted in the large field and not modulo 659, so they leave their range, Bars has a collision and the permutation is not injective, for any round constants."
  },
  {
   "property": "C31",
   "status": "proved",
   "theorems": [
    "C31_simplified_swu",
    "C31_g1",
    "C31_g2",
    "C31_unique"
   ],
   "note": "For any field and curve with the preconditions; the suites' curves are shown to meet them. The field's methods are contracts."
  },
  {
   "property": "C32",
   "status": "proved",
   "theorems": [
    "C32_isogeny_g1",
    "C32_kernel_g1",
    "C32_isogeny_g2"
   ],
   "note": ""
  },
  {
   "property": "C54",
   "status": "partial",
   "theorems": [
    "C54_map_to_curve_g2",
    "C54_map_to_curve_g1_partial",
    "C54_identity_g1_refuted"
   ],
   "note": "False of the code for G1: an input whose intermediate point is in the kernel is exhibited, and the result is one(), the generator, not the identity. G2 is proved for every input."
  },
  {
   "property": "C55",
   "status": "proved",
   "theorems": [
    "C55_effective_cofactors",
    "C55_prime_order_g1",
    "C55_prime_order_g2"
   ],
   "note": "The order of the curves' groups is a hypothesis: point counting is outside the code."
  },
  {
   "property": "C56",
   "status": "proved",
   "theorems": [
    "C56_hash_to_curve"
   ],
   "note": "For one extraction; what later extractions return is C30."
  },
  {
   "property": "C17",
   "status": "proved",
   "theorems": [
    "C17_x86_64_portable"
   ],
   "note": "For every contents of the registers and of the local arrays; with C15 this is FIPS 202."
  },
  {
   "property": "C18",
   "status": "proved",
   "theorems": [
    "C18_armv8_portable"
   ],
   "note": "For every contents of x0-x30 and of the stack below the stack pointer; with C15 this is FIPS 202."
  },
  {
   "property": "C19",
   "status": "partial",
   "theorems": [
    "C19_avx2_portable_partial",
    "C19_avx2_operand_overwritten_refuted"
   ],
   "note": "False of the code if the compiler allocates the operand rounds to r8, r9 or r10, which the assembly overwrites without declaring it; proved for every other allocation."
  },
  {
   "property": "C20",
   "status": "partial",
   "theorems": [
    "C20_avx512_wrong_refuted",
    "C20_avx512_ignores_words_refuted",
    "C20_avx512_loop_partial"
   ],
   "note": "False of the code: the words are put in lanes 3-7 and read from lanes 0-4, so the result ignores 15 of the 25 words; the masks are never set, and the text is not valid assembly. Proved of the loop alone, started with the right lanes and masks."
  },
  {
   "property": "C57",
   "status": "partial",
   "theorems": [
    "C57_armv8_registers_partial",
    "C57_x86_64_operand_changed_refuted",
    "C57_x86_64_registers_partial",
    "C57_avx2_registers_changed_refuted",
    "C57_avx2_registers_partial"
   ],
   "note": "True of ARMv8. False of x86-64 (the input operand c is moved) and of AVX2 (r8, r9, r10 are not declared); proved of all other registers."
  },
  {
   "property": "C58",
   "status": "proved",
   "theorems": [
    "C58_md4",
    "C58_md5",
    "C58_sha",
    "C58_sha1",
    "C58_sha224",
    "C58_sha256",
    "C58_sha384",
    "C58_sha512"
   ],
   "note": "The block cipher belongs to another library; the theorems ask of it what the published compression function does before the feed-forward."
  },
  {
   "property": "C59",
   "status": "partial",
   "theorems": [
    "C59_platforms_partial",
    "C59_avx512_collisions_refuted"
   ],
   "note": "Proved of the portable code, x86-64, ARMv8 and AVX2 (with C19's proviso). False of AVX-512: different messages collide."
  },
  {
   "property": "C60",
   "status": "partial",
   "theorems": [
    "C60_hash_to_field",
    "C60_hash_to_g2",
    "C60_hash_to_g1_partial",
    "C60_unique"
   ],
   "note": "Proved of both field hashes and of G2. Of G1 for messages none of whose two intermediate points is in the isogeny's kernel: for the others the code adds one() in place of the neutral element (C54_identity_g1_refuted); no such message is known."
  },
  {
   "property": "C61",
   "status": "proved",
   "theorems": [
    "C61_collision_gives_relation",
    "C61_collision_any_lengths",
    "C61_padding_not_distinguished"
   ],
   "note": ""
  },
  {
   "property": "C62",
   "status": "proved",
   "theorems": [
    "C62_collision_512",
    "C62_collision_truncated",
    "C62_calls"
   ],
   "note": ""
  },
  {
   "property": "C63",
   "status": "proved",
   "theorems": [
    "C63_encoding_injective",
    "C63_domain_separation"
   ],
   "note": ""
  },
  {
   "property": "C64",
   "status": "proved",
   "theorems": [
    "C64_linear_layer_mds",
    "C64_rounds_mds"
   ],
   "note": ""
  },
  {
   "property": "C65",
   "status": "proved",
   "theorems": [
    "C65_sponge_collision"
   ],
   "note": ""
  },
  {
   "property": "C66",
   "status": "proved",
   "theorems": [
    "C66_crc32_two_bits"
   ],
   "note": ""
  },
  {
   "property": "C67",
   "status": "proved",
   "theorems": [
    "C67_crc_affine"
   ],
   "note": ""
  },
  {
   "property": "C68",
   "status": "partial",
   "theorems": [
    "C68_x86_64_constant_time",
    "C68_armv8_constant_time",
    "C68_avx2_constant_time_partial",
    "C68_avx512_constant_time_partial",
    "C68_record_path_and_writes",
    "C68_record_writes_straight",
    "C68_record_reads",
    "C68_record_reads_straight"
   ],
   "note": "One record of instructions, addresses and branches for all runs. x86-64 and ARMv8: in full. AVX2: except when the compiler puts the operand rounds in r8, r9 or r10, where the code does not work (C19). AVX-512: with the masks the code leaves unset given."
  },
  {
   "property": "C69",
   "status": "partial",
   "theorems": [
    "C69_any_length_md_partial",
    "C69_length_modulo_md_partial",
    "C69_wide_length_field_refuted",
    "C69_last_block_ignored_md_refuted",
    "C69_multiples_md_partial",
    "C69_every_length_blake2b_partial",
    "C69_blake2b_rfc_counters",
    "C69_last_block_ignored_blake2b_refuted",
    "C69_partial_block_ignored_sponge_refuted"
   ],
   "note": "False of the code: the bit counter has 64 bits, and when it is zero after a message the last block is dropped from the digest (all hashes); SHA-384 and SHA-512 put the length modulo 2^64 in their 128-bit length field; BLAKE2b's counters are those of RFC 7693 modulo 2^61. Right for length fields of 64 bits and lengths that are not multiples of 2^64 bits."
  },
  {
   "property": "C70",
   "status": "partial",
   "theorems": [
    "C70_any_number_of_segments_partial",
    "C70_segments_change_places_refuted"
   ],
   "note": "False of the code: the number of the segment is cast to 32 bits, so the base points repeat after 2^32 segments and segments 2^32 apart can be exchanged. The digest of every message shorter than 2^64 bits is stated."
  },
  {
   "property": "C71",
   "status": "proved",
   "theorems": [
    "C71_length_extension",
    "C71_collision_extension"
   ],
   "note": "The continued digest is stated in full, as a function of the digest, the length and the continuation (SpecExtend.v). The block cipher as in C58."
  },
  {
   "property": "C72",
   "status": "partial",
   "theorems": [
    "C72_octets_portable",
    "C72_modelled_machine",
    "C72_wide_integers_refuted",
    "C72_wide_integers_partial"
   ],
   "note": "octets: full; wider integers: false (SHA-256 of the 32-bit integer 1), what holds is that the big-endian machine hashes the byte-swapped integers"
  },
  {
   "property": "C73",
   "status": "proved",
   "theorems": [
    "C73_default_pedersen",
    "C73_base_points_published",
    "C73_chunks"
   ],
   "note": "for segments whose first candidate that decodes is good; what happens otherwise is C35. The Zcash protocol itself uses BLAKE2s here, the library SHA-256 (its TODO)."
  },
  {
   "property": "C74",
   "status": "partial",
   "theorems": [
    "C74_integer_swapped_partial",
    "C74_integer_is_checksum_refuted"
   ],
   "note": "false: the digest is big-endian and the conversion reads it little-endian; what holds is that the integer is the checksum with its octets reversed. Integer types wider than the digest are not modelled."
  },
  {
   "property": "C75",
   "status": "proved",
   "theorems": [
    "C75_programs",
    "C75_programs_crc",
    "C75_tiger",
    "C75_programs_hash_to_field",
    "C75_programs_find_group_hash",
    "C75_programs_hash_to_curve",
    "C75_programs_pedersen",
    "C75_digests_from_copies_hash_to_field",
    "C75_digests_from_copies_hash_to_curve",
    "C75_digests_from_copies_pedersen"
   ],
   "note": "C75_programs holds for every hash that meets octet_hash: C27_sponge_hashes, C27_md_hashes, C27_blake2b, C75_tiger"
  },
  {
   "property": "C76",
   "status": "proved",
   "theorems": [
    "C76_checksum_appended",
    "C76_crc32_png"
   ],
   "note": ""
  },
  {
   "property": "C77",
   "status": "proved",
   "theorems": [
    "C77_elements_of_the_octets",
    "C77_unbiased",
    "C77_suites"
   ],
   "note": "That the octets are uniform is an assumption about the hash that no model proves."
  },
  {
   "property": "C78",
   "status": "proved",
   "theorems": [
    "C78_simplified_swu",
    "C78_map_to_curve_g2",
    "C78_map_to_curve_g1"
   ],
   "note": "Upper bounds; they are not claimed to be attained."
  },
  {
   "property": "C79",
   "status": "proved",
   "theorems": [
    "C79_collision",
    "C79_full_state"
   ],
   "note": ""
  },
  {
   "property": "C80",
   "status": "proved",
   "theorems": [
    "C80_published",
    "C80_entry_points",
    "C80_programs",
    "C80_digest_sizes",
    "C80_expand_message",
    "C80_hash_to_field"
   ],
   "note": "The block ciphers, the injector and the Keccak permutation are taken by contract, as in C58, C01 and C15-C18; what BLAKE2b gives for positive multiples of 128 octets is C21's."
  },
  {
   "property": "C81",
   "status": "proved",
   "theorems": [
    "C81_threads",
    "C81_threads_hash_to_field",
    "C81_threads_hash_to_curve",
    "C81_threads_pedersen",
    "C81_threads_crc",
    "C82_shared_reads_find_group_hash_partial"
   ],
   "note": "A turn is one call or one value of an update; the destruction of a stream processor, an extraction, and for CRCs a range of pointers or random-access iterators, are one turn. For hash_to_field, hash_to_curve, find_group_hash and Pedersen the digests of a thread alone are those of C75. For find_group_hash C82's theorem includes this property in full (owners of all accumulators)."
  },
  {
   "property": "C82",
   "status": "partial",
   "theorems": [
    "C82_shared_reads_partial",
    "C82_shared_reads_crc_partial",
    "C82_shared_reads_find_group_hash_partial",
    "C82_shared_hash_to_field_refuted",
    "C82_shared_pedersen_refuted"
   ],
   "note": "True of the block hashes, CRCs and find_group_hash; false of hash_to_field (so of hash_to_curve) and Pedersen, whose extraction is const but writes to a mutable member (C30): two threads that each take one digest get different ones."
  },
  {
   "property": "C83",
   "status": "proved",
   "theorems": [
    "C83_update",
    "C83_programs",
    "C83_programs_hash_to_field",
    "C83_programs_pedersen",
    "C83_programs_crc",
    "C83_output"
   ],
   "note": "The destructor of the stream processor, a temporary object, runs when the exception leaves the statement. For hash_to_field and Pedersen the theorems say that the program runs as if the ranges ended there; what that gives is C75. hash_to_curve and find_group_hash update their accumulators by the call of C83_update."
  },
  {
   "property": "C84",
   "status": "partial",
   "theorems": [
    "C84_merkle_damgard",
    "C84_sponge",
    "C84_blake2b_partial",
    "C84_blake2b_reset_state_refuted",
    "C84_blake2b_restore_refuted"
   ],
   "note": "True of the Merkle-Damgard hashes, SHA-3 and Keccak. BLAKE2b: true but for restoring, which is false because reset(s) changes the first word of s; true again if the caller changes that word back. process_block of BLAKE2b needs its count; for positive multiples of 128 octets its digest is C21's."
  },
  {
   "property": "C85",
   "status": "proved",
   "theorems": [
    "C85_programs",
    "C85_threads",
    "C85_reference",
    "C85_original_instances",
    "C85_mina_instances"
   ],
   "note": "A squeeze is one turn of a thread; absorbing a vector takes a turn for each element. What squeeze returns is taken as a value in C85_programs and C85_threads, and as the reference it is in C85_reference."
  },
  {
   "property": "C86",
   "status": "proved",
   "theorems": [
    "C86_even_generator_keeps_parity",
    "C86_even_generator_detects_odd",
    "C86_odd_generator_misses_odd",
    "C86_crc32_png_misses_odd"
   ],
   "note": "boost::crc_optimal is external; computes (PCrc.v) is what is assumed of it, as in C44."
  },
  {
   "property": "C87",
   "status": "proved",
   "theorems": [
    "C87_every_program",
    "C87_objects",
    "C87_forgotten_reset",
    "C87_digest_and_go_on"
   ],
   "note": "Counts are whole octets. The ciphers of MD4, MD5 and SHA are external; cipher_computes (PSha.v) is what is assumed of them, as in C58."
  },
  {
   "property": "C88",
   "status": "proved",
   "theorems": [
    "C88_every_program",
    "C88_objects",
    "C88_forgotten_reset",
    "C88_forgotten_reset_collides"
   ],
   "note": "The objects are those of C84 for SHA-3 and Keccak (C88_objects; C88_functions shows that the functions are the published ones). Assumes the contract of the injector on the blocks used; keccak_1600 may use any permutation that agrees with the portable one."
  },
  {
   "property": "C89",
   "status": "proved",
   "theorems": [
    "C89_every_program",
    "C89_objects",
    "C89_forgotten_reset",
    "C89_state_passed_twice"
   ],
   "note": "The objects are those of C84 for BLAKE2b (C89_objects). Assumes the contract of the injector on the blocks used. That a full last block is compressed twice, and that reset(state) changes the state, is what C21 and C84 refute; here it is part of the function described."
  }
 ]
}