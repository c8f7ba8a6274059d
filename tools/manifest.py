#!/usr/bin/env python3
"""Writes /verif/MANIFEST.json; edit the table below."""
import json, re, glob
claims = []
def c(prop, status, theorems, note=""):
    claims.append({"property": prop, "status": status, "theorems": theorems.split(), "note": note})

c("C01", "proved", "C01_md_digest C01_md_digest_octets C01_tiger_marker_digest_octets")
c("C02", "proved", "C02_chunking_md C02_pieces_equal_one_call_md C02_C03_pieces_sponge C02_pieces_equal_one_call_sponge C02_C03_pieces_blake2b C02_pieces_equal_one_call_blake2b C02_C03_pieces_tiger C02_pieces_equal_one_call_tiger")
c("C03", "proved", "C03_element_width_md C03_wide_elements_as_octets_md C02_C03_pieces_sponge C03_wide_elements_sponge C02_C03_pieces_blake2b C03_wide_elements_blake2b C03_wide_elements_tiger", "the pack library is external: that pack_to reads wide values in the machine's byte order is taken from the vectors of test/find_group_hash.cpp and test/pedersen.cpp, which hold only so")
c("C04", "proved", "C04_extraction_repeatable_md C04_extraction_repeatable_sponge C04_extraction_repeatable_blake2b C04_extraction_repeatable_tiger")
c("C05", "partial", "C05_no_stale_memory_md C05_C06_octet_feeds_sponge_partial C05_stale_bits_sponge_refuted C06_bit_feeds_sponge_partial C05_no_stale_memory_blake2b C05_C06_octet_feeds_tiger_partial C06_bit_feeds_tiger_partial C06_tiger_marker_overrun_refuted", "Merkle-Damgard and BLAKE2b: full; sponge: false for bit counts that are not a multiple of 8, C06_bit_feeds_sponge_partial says which bits come from memory; Tiger: every bit length for which the code defines a digest")
c("C06", "partial", "C06_bit_exact_block_feeds_md C05_C06_octet_feeds_sponge_partial C06_bit_feeds_sponge_partial C06_bit_exact_block_feeds_blake2b C05_C06_octet_feeds_tiger_partial C06_bit_feeds_tiger_partial C06_tiger_marker_overrun_refuted", "Merkle-Damgard and BLAKE2b: full; sponge: whole octets; for other bit counts the digest is that of another string, stated exactly (see C14); Tiger: every bit length except 505 to 511 modulo 512, where the padding overruns the block (refuted)")
c("C07", "partial", "C07_word_feeds_refuted C07_word_feeds_partial C07_every_history_md_partial C07_every_history_tiger_partial C07_every_history_sponge_partial C07_every_history_sponge_bits_partial C07_every_history_blake2b_partial C07_nothing_forgotten_blake2b",
  "false of the code: a block completed by word feeds is lost when anything follows; C07_word_feeds_partial covers all other histories, the every_history theorems give the digest after every history for every construction")
c("C08", "partial", "C08_bits_count_refuted C08_bits_count_partial C08_every_history_partial",
  "false of the code when the bit count is omitted; true when it is given; C08_every_history_partial gives both counters after every history")
c("C09", "proved", "C09_padding_injective C09_blocks_differ C09_collision_resistance_preserved C09_digest_collision")
c("C10", "proved", "C10_compression_calls")
c("C12", "proved", "C12_sha3_fips202")
c("C13", "proved", "C13_keccak")
c("C14", "partial", "C14_bit_strings_collide_refuted C14_overrun_refuted C14_octet_padding_injective_partial C06_bit_feeds_sponge_partial",
  "false of the code: bit-level messages collide and overrun; true on whole octets; C06_bit_feeds_sponge_partial gives the digest, or the overrun, for every number of bits")
c("C15", "proved", "C15_permute_fips202")
c("C16", "proved", "C16_permute_injective C16_permute_surjective")
c("C21", "partial", "C21_blake2b_rfc7693_partial C21_blake2b_whole_blocks_refuted C21_blake2b_all_lengths_partial",
  "false of the code for messages of positive length divisible by 128 octets (last block compressed twice); true for all others")
c("C49", "proved", "C49_mixing_injective C49_mixing_surjective C49_mixing_closed")
c("C23", "proved", "C23_davies_meyer C23_matyas_meyer_oseas C23_miyaguchi_preneel")
c("C24", "partial", "C24_digest_info_partial C24_malformed_refuted C24_sha0_names_sha1_refuted",
  "false of the code for SHA-256, SHA-512, RIPEMD-128/256/320 (malformed) and SHA-0 (names SHA-1); true for the other published prefixes")
c("C25", "proved", "C25_pow C25_pow_unsigned")
c("C26", "proved", "C26_strxor C26_strxor_twice")
c("C45", "proved", "C45_digest_size_md C45_digest_size_sponge C45_digest_size_blake2b")
c("C46", "proved", "C46_pack_round_trip C46_pack_octets_to_words", "chunk widths that are whole octets")
c("C47", "proved", "C47_entry_points_md C47_entry_points_sponge C47_entry_points_blake2b")
c("C51", "partial", "C51_small_array_overflows_refuted C51_large_array_uninitialised_refuted C47_entry_points_md",
  "false of the code for sizes other than the digest's; for the digest's own size see object_is in C47")

c("C11", "proved", "C11_tiger_compression C11_tiger_digest")
c("C22", "proved", " ".join(f"C22_ripemd{n}_{k}" for n in (128, 160, 256, 320) for k in ("compression", "digest")))
c("C48", "partial", "C48_truncated_tiger_refuted C48_longer_tiger_partial",
  "false of the code: the truncated variants do not compile; longer widths append zero octets")
c("C50", "proved", "C50_ripemd128_lines C50_ripemd160_lines C50_ripemd256_lines C50_ripemd320_lines C50_tiger_passes C50_tiger_key_schedule")

c("C44", "proved", "C44_crc_history C44_crc_digest C44_end_message")
c("C52", "proved", "C52_crc_detects_bursts")
c("C27", "proved", "C27_expand_message_xmd C27_accepted C27_sponge_hashes C27_md_hashes C27_blake2b")
c("C28", "partial", "C28_stays_inside_refuted C28_stays_inside_partial",
  "false of the code for lengths that are not positive multiples of the digest size; true for the others")
c("C29", "proved", "C29_hash_to_field C29_coordinates_in_range",
  "for expanded lengths that are multiples of the digest size; the marshalling library and the modular type are assumed to read a big-endian number and reduce it")
c("C30", "partial", "C30_repeatable_refuted C30_histories_partial C30_h2f_histories_partial C30_h2c_histories_partial C30_pedersen_repeatable_refuted C30_pedersen_histories_partial C30_pedersen_bits_histories_partial",
  "false of the code: an extraction absorbs its own suffix (or, for Pedersen, adds its last segment for good); the theorems say what later extractions return")
c("C33", "proved", "C33_pedersen_to_point C33_pedersen")
c("C34", "proved", "C34_chunks_per_base_point C34_value_largest C34_encodings_differ C34_encodings_nonzero")
c("C35", "partial", "C35_first_valid_partial C35_published_value_partial C35_terminates_refuted C35_small_order_refuted",
  "false of the code when no candidate decodes (endless loop) or the first one has small order (abort); true otherwise")

c("C36", "proved", "C36_calls C36_hash_range C36_hash_range_initial C36_hash_element_initial C36_hash_element C36_original_instances C36_mina_instances")
c("C37", "partial", "C37_trailing_zero_refuted C37_same_length_partial C37_collision_partial",
  "False of the code: a sequence and the same sequence with a zero element added to an unfilled group hash alike. Proved: that is the only way, up to a collision in (or a zero of) the last word of the permutation.")
c("C38", "partial", "C38_packing_partial C38_packing_initial_partial C38_injective_partial C38_leading_zero_refuted C38_wide_words_refuted",
  "False of the code for 32- and 64-bit words (1 << 32 in an int is undefined) and for containers of different lengths (leading zero words vanish). Proved for words of fewer than 32 bits; injective on containers of equal length.")
c("C39", "proved", "C39_original_permutation C39_mina_permutation C39_original_bijection C39_mina_bijection C39_original_instances C39_mina_instances")
c("C40", "partial", "C40_generation_ends_refuted C40_draws_partial",
  "False of the code: every entry of row i is 1 / (x_i - y_i), so every candidate is singular and the loop never ends, whatever is drawn. C40_draws_partial: exactly the draws of pairwise different elements reach the determinant.")
c("C41", "partial", "C41_step_bijection C41_step_is_grain C41_never_zero C41_sampler_bounded C41_constants_of_stream C41_constants_reduced C41_constants_complete C41_reinforced_concrete_of_stream C41_reinforced_concrete_reduced C41_reinforced_concrete_complete C41_generator_gives_table_refuted",
  "Everything holds except that the initial state codes the S-box as 1 where the published generation has 0, so the generator does not reproduce the library's own tables.")
c("C42", "partial", "C42_rate_partial C42_rounds_published C42_degree_margin C42_rate_8_refuted",
  "False of the code for security 128 and rate 8, which gives a policy of rate 4 without tables; proved for all other pairs.")
c("C53", "proved", "C53_bn254_rate_2 C53_bn254_rate_4 C53_bls12_381_rate_2 C53_bls12_381_rate_4")

c("C43", "partial", "C43_decompose C43_digits_unique C43_compose_decompose C43_bricks C43_bricks_bijection C43_concrete C43_concrete_bijection C43_matrix_refuted C43_bars_partial C43_sbox_range_refuted C43_bars_injective_refuted C43_permute_injective_refuted C43_permute_layers",
  "Bricks, Concrete and the decomposition are proved. False of the code: digits are inverted in the large field and not modulo 659, so they leave their range, Bars has a collision and the permutation is not injective, for any round constants.")

c("C31", "proved", "C31_simplified_swu C31_g1 C31_g2 C31_unique",
  "For any field and curve with the preconditions; the suites' curves are shown to meet them. The field's methods are contracts.")
c("C32", "proved", "C32_isogeny_g1 C32_kernel_g1 C32_isogeny_g2")
c("C54", "partial", "C54_map_to_curve_g2 C54_map_to_curve_g1_partial C54_identity_g1_refuted",
  "False of the code for G1: an input whose intermediate point is in the kernel is exhibited, and the result is one(), the generator, not the identity. G2 is proved for every input.")
c("C55", "proved", "C55_effective_cofactors C55_prime_order_g1 C55_prime_order_g2",
  "The order of the curves' groups is a hypothesis: point counting is outside the code.")
c("C56", "proved", "C56_hash_to_curve",
  "For one extraction; what later extractions return is C30.")
c("C17", "proved", "C17_x86_64_portable",
  "For every contents of the registers and of the local arrays; with C15 this is FIPS 202.")
c("C18", "proved", "C18_armv8_portable",
  "For every contents of x0-x30 and of the stack below the stack pointer; with C15 this is FIPS 202.")
c("C19", "partial", "C19_avx2_portable_partial C19_avx2_operand_overwritten_refuted",
  "False of the code if the compiler allocates the operand rounds to r8, r9 or r10, which the assembly overwrites without declaring it; proved for every other allocation.")
c("C20", "partial", "C20_avx512_wrong_refuted C20_avx512_ignores_words_refuted C20_avx512_loop_partial",
  "False of the code: the words are put in lanes 3-7 and read from lanes 0-4, so the result ignores 15 of the 25 words; the masks are never set, and the text is not valid assembly. Proved of the loop alone, started with the right lanes and masks.")
c("C57", "partial", "C57_armv8_registers_partial C57_x86_64_operand_changed_refuted C57_x86_64_registers_partial C57_avx2_registers_changed_refuted C57_avx2_registers_partial",
  "True of ARMv8. False of x86-64 (the input operand c is moved) and of AVX2 (r8, r9, r10 are not declared); proved of all other registers.")
c("C58", "proved", "C58_md4 C58_md5 C58_sha C58_sha1 C58_sha224 C58_sha256 C58_sha384 C58_sha512",
  "The block cipher belongs to another library; the theorems ask of it what the published compression function does before the feed-forward.")
c("C59", "partial", "C59_platforms_partial C59_avx512_collisions_refuted",
  "Proved of the portable code, x86-64, ARMv8 and AVX2 (with C19's proviso). False of AVX-512: different messages collide.")
c("C60", "partial", "C60_hash_to_field C60_hash_to_g2 C60_hash_to_g1_partial C60_unique",
  "Proved of both field hashes and of G2. Of G1 for messages none of whose two intermediate points is in the isogeny's kernel: for the others the code adds one() in place of the neutral element (C54_identity_g1_refuted); no such message is known.")
c("C61", "proved", "C61_collision_gives_relation C61_collision_any_lengths C61_padding_not_distinguished")
c("C62", "proved", "C62_collision_512 C62_collision_truncated C62_calls")
c("C63", "proved", "C63_encoding_injective C63_domain_separation")
c("C64", "proved", "C64_linear_layer_mds C64_rounds_mds")
c("C65", "proved", "C65_sponge_collision")
c("C66", "proved", "C66_crc32_two_bits")
c("C67", "proved", "C67_crc_affine")

c("C68","partial","C68_x86_64_constant_time C68_armv8_constant_time C68_avx2_constant_time_partial C68_avx512_constant_time_partial C68_record_path_and_writes C68_record_writes_straight C68_record_reads C68_record_reads_straight",
  "One record of instructions, addresses and branches for all runs. x86-64 and ARMv8: in full. AVX2: except when the compiler puts the operand rounds in r8, r9 or r10, where the code does not work (C19). AVX-512: with the masks the code leaves unset given.")
c("C69","partial","C69_any_length_md_partial C69_length_modulo_md_partial C69_wide_length_field_refuted C69_last_block_ignored_md_refuted C69_multiples_md_partial C69_every_length_blake2b_partial C69_blake2b_rfc_counters C69_last_block_ignored_blake2b_refuted C69_partial_block_ignored_sponge_refuted",
  "False of the code: the bit counter has 64 bits, and when it is zero after a message the last block is dropped from the digest (all hashes); SHA-384 and SHA-512 put the length modulo 2^64 in their 128-bit length field; BLAKE2b's counters are those of RFC 7693 modulo 2^61. Right for length fields of 64 bits and lengths that are not multiples of 2^64 bits.")
c("C70","partial","C70_any_number_of_segments_partial C70_segments_change_places_refuted",
  "False of the code: the number of the segment is cast to 32 bits, so the base points repeat after 2^32 segments and segments 2^32 apart can be exchanged. The digest of every message shorter than 2^64 bits is stated.")
c("C71","proved","C71_length_extension C71_collision_extension",
  "The continued digest is stated in full, as a function of the digest, the length and the continuation (SpecExtend.v). The block cipher as in C58.")
c("C72", "partial", "C72_octets_portable C72_modelled_machine C72_wide_integers_refuted C72_wide_integers_partial", "octets: full; wider integers: false (SHA-256 of the 32-bit integer 1), what holds is that the big-endian machine hashes the byte-swapped integers")
c("C73", "proved", "C73_default_pedersen C73_base_points_published C73_chunks", "for segments whose first candidate that decodes is good; what happens otherwise is C35. The Zcash protocol itself uses BLAKE2s here, the library SHA-256 (its TODO).")
c("C74", "partial", "C74_integer_swapped_partial C74_integer_is_checksum_refuted", "false: the digest is big-endian and the conversion reads it little-endian; what holds is that the integer is the checksum with its octets reversed. Integer types wider than the digest are not modelled.")
c("C75", "proved", "C75_programs C75_programs_crc C75_tiger C75_programs_hash_to_field C75_programs_find_group_hash C75_programs_hash_to_curve C75_programs_pedersen C75_digests_from_copies_hash_to_field C75_digests_from_copies_hash_to_curve C75_digests_from_copies_pedersen", "C75_programs holds for every hash that meets octet_hash: C27_sponge_hashes, C27_md_hashes, C27_blake2b, C75_tiger")
c("C76", "proved", "C76_checksum_appended C76_crc32_png",
  "")
c("C77", "proved", "C77_elements_of_the_octets C77_unbiased C77_suites",
  "That the octets are uniform is an assumption about the hash that no model proves.")
c("C78", "proved", "C78_simplified_swu C78_map_to_curve_g2 C78_map_to_curve_g1",
  "Upper bounds; they are not claimed to be attained.")
c("C79", "proved", "C79_collision C79_full_state")
c("C80", "proved", "C80_published C80_entry_points C80_programs C80_digest_sizes C80_expand_message C80_hash_to_field",
  "The block ciphers, the injector and the Keccak permutation are taken by contract, as in C58, C01 and C15-C18; what BLAKE2b gives for positive multiples of 128 octets is C21's.")

c("C81", "proved", "C81_threads C81_threads_hash_to_field C81_threads_hash_to_curve C81_threads_pedersen C81_threads_crc C82_shared_reads_find_group_hash_partial",
  "A turn is one call or one value of an update; the destruction of a stream processor, an extraction, and for CRCs a range of pointers or random-access iterators, are one turn. For hash_to_field, hash_to_curve, find_group_hash and Pedersen the digests of a thread alone are those of C75. For find_group_hash C82's theorem includes this property in full (owners of all accumulators).")
c("C82", "partial", "C82_shared_reads_partial C82_shared_reads_crc_partial C82_shared_reads_find_group_hash_partial C82_shared_hash_to_field_refuted C82_shared_pedersen_refuted",
  "True of the block hashes, CRCs and find_group_hash; false of hash_to_field (so of hash_to_curve) and Pedersen, whose extraction is const but writes to a mutable member (C30): two threads that each take one digest get different ones.")

c("C83", "proved", "C83_update C83_programs C83_programs_hash_to_field C83_programs_pedersen C83_programs_crc C83_output",
  "The destructor of the stream processor, a temporary object, runs when the exception leaves the statement. For hash_to_field and Pedersen the theorems say that the program runs as if the ranges ended there; what that gives is C75. hash_to_curve and find_group_hash update their accumulators by the call of C83_update.")

c("C84", "partial", "C84_merkle_damgard C84_sponge C84_blake2b_partial C84_blake2b_reset_state_refuted C84_blake2b_restore_refuted",
  "True of the Merkle-Damgard hashes, SHA-3 and Keccak. BLAKE2b: true but for restoring, which is false because reset(s) changes the first word of s; true again if the caller changes that word back. process_block of BLAKE2b needs its count; for positive multiples of 128 octets its digest is C21's.")

c("C85", "proved", "C85_programs C85_threads C85_reference C85_original_instances C85_mina_instances",
  "A squeeze is one turn of a thread; absorbing a vector takes a turn for each element. What squeeze returns is taken as a value in C85_programs and C85_threads, and as the reference it is in C85_reference.")

c("C86", "proved", "C86_even_generator_keeps_parity C86_even_generator_detects_odd C86_odd_generator_misses_odd C86_crc32_png_misses_odd",
  "boost::crc_optimal is external; computes (PCrc.v) is what is assumed of it, as in C44.")
c("C87", "proved", "C87_every_program C87_objects C87_forgotten_reset C87_digest_and_go_on",
  "Counts are whole octets. The ciphers of MD4, MD5 and SHA are external; cipher_computes (PSha.v) is what is assumed of them, as in C58.")

c("C88", "proved", "C88_every_program C88_objects C88_forgotten_reset C88_forgotten_reset_collides",
  "The objects are those of C84 for SHA-3 and Keccak (C88_objects; C88_functions shows that the functions are the published ones). Assumes the contract of the injector on the blocks used; keccak_1600 may use any permutation that agrees with the portable one.")
c("C89", "proved", "C89_every_program C89_objects C89_forgotten_reset C89_state_passed_twice",
  "The objects are those of C84 for BLAKE2b (C89_objects). Assumes the contract of the injector on the blocks used. That a full last block is compressed twice, and that reset(state) changes the state, is what C21 and C84 refute; here it is part of the function described.")
src = "\n".join(open(f).read() for f in glob.glob("/verif/rocq/theories/*.v"))
known = set(re.findall(r"(?:Theorem|Lemma|Corollary|Example)\s+(\w+)", src))
for cl in claims:
    for t in cl["theorems"]:
        assert t in known, t
listed = {t for cl in claims for t in cl["theorems"]}
for t in re.findall(r"Theorem\s+(C\d\d\w+)", src):
    if t not in listed: print("not in manifest:", t)
ids = [json.loads(l)["id"] for l in open("/verif/properties.jsonl")]
for i in ids:
    if i not in {cl["property"] for cl in claims}: print("no claim:", i)
json.dump({"claims": claims}, open("/verif/MANIFEST.json", "w"), indent=1)
