# Formal model of crypto3-hash: design

The code under study is the header-only library in `/repo` (namespace `nil::crypto3`, directory
`include/nil/crypto3/hash`, abbreviated `H/` below).  The model is written in Coq 8.16.1 in
`/verif/rocq/theories` (logical name `Verif`).

## Layout

| file group | content |
|---|---|
| `Spec*.v` | specifications written from the public standards and the English properties only (bit streams, Merkle-Damgard padding, FIPS 202, RFC 7693, RIPEMD, Tiger, RFC 9380, Zcash Pedersen, DER, ...). They do not import the model. |
| `M*.v` | the model of the code, function by function, each definition citing file and lines |
| `L*.v` | proofs |
| `P*.v` | the property theorems only, each closed by `exact`, followed by `Print Assumptions`, with an `Example` showing a concrete non-trivial instance of its hypotheses |

## Modelling conventions

* Machine words are `N`, reduced modulo `2^w` explicitly; sizes and offsets inside a block are `nat`; `total_seen`
  (a `std::size_t`) is an `N` that wraps modulo `2^64`.
* A block (`std::array<word_type, block_words>`) is a `list N`; well-formedness (length and word range) is explicit.
* Byte/bit orders (`stream_endian::...`) are the four constructors of `endian`; the bit stream of a word under an
  order is given by a position map. `pack`, `pack_to`, `pack_from` are *re-chunkings of the bit stream*; this is the
  contract documented in `docs/pack.md`, and every case of `test/pack.cpp` is checked against the model.
* `pack_to` (called with one order only, the hash's) reads its input values in the machine's order, `c_host` of a
  construction, which is `host_order`, little-endian, for every hash of the library. The pack library is not in the
  repository and `docs/pack.md` is silent on this; the evidence is `test/find_group_hash.cpp` (the 32-bit value 3 hashes
  like the octets 3,0,0,0 under SHA-256, a big-endian hash) and `test/pedersen.cpp`, whose vectors hold with
  little-endian segment numbers only.
* `tools/vectors.py` runs the model on the vectors of `test/data/*.json` and on those in `test/poseidon.cpp`,
  `test/h2c.cpp`; all agree. The two in `test/reinforced_concrete.cpp` do not, and must not: `test/CMakeLists.txt:85`
  leaves that test out with the comment "fails" (C43 has the reasons). This tests the transcription; no theorem
  depends on it.
* `injector::inject` lives in another repository. It is a section variable constrained by a contract
  (`injector_contract`): bits before `seen` are kept, the next `n` bits come from the source, each bit after that is
  either kept or cleared, `seen` advances by `n`. Theorems hold for every injector meeting the contract; two concrete
  injectors are proved to meet it.
* Block ciphers (MD4/MD5/SHACAL), `boost::crc`, random field elements, field square roots, curve decoding are section
  variables. Sections are closed, so each becomes a universally quantified argument of the theorem.
* Uninitialised memory (the accumulator's cache) is an arbitrary well-formed value.
* Extraction (`result()`) copies the construction, so it is a pure function of the accumulator; for the specialised
  accumulator (`find_group_hash`, `pedersen`, `h2f`, `h2c`), whose `acc` is `mutable`, extraction returns a new
  accumulator as well.
* Loops become structural recursion; possibly non-terminating loops take fuel and the theorems quantify over fuel.
* Where a property is false of the code, the theorem proved is its negation on a witness (suffix `_refuted`), together
  with the strongest true variant (suffix `_partial`).

## Properties

| id | model | proof |
|---|---|---|
| C01 | accumulator + block stream processor + MD construction, generic in compressor | invariant over feeds, then padding arithmetic; spec is `md_pad` on bit strings |
| C02 | same, for any construction | refinement of the accumulator to the message bit string |
| C03 | stream processor generic in element width | re-chunking lemma |
| C04 | `result` + histories of update/extract operations | induction over histories |
| C05 | arbitrary initial cache and injector junk | corollary of the refinement (spec mentions no memory) |
| C06 | `process(block)` | refinement |
| C07 | `process(word)` | false: block lost after a word-aligned fill; refuted generically; partial: true while no word feed completes a block; and, with no condition, the digest after every history: that of the bits that survive, with the number of all bits in the length field (SpecFeeds.v; Merkle-Damgard, Tiger, sponge), for BLAKE2b that of all bits with the calls for forgotten blocks left out (SpecFeedsBlake.v) |
| C08 | `bits_count` | false when the bit count is omitted; partial when always given; the two counters after every history (`PFeeds.v`) |
| C09, C10 | MD spec + instrumented compressor | list arithmetic; instantiate the compressor with a counter |
| C11 | Tiger | spec equality |
| C12, C13 | sponge construction, paddings, finaliser | spec is FIPS 202 on bit strings |
| C14 | paddings at bit granularity | false; refuted by collisions; the string hashed in place of any bit string is stated (SpecSpongeBits.v), and when the padding overruns |
| C15 | generic permutation | bit-level equality with FIPS 202 |
| C16 | | inverse of each step mapping |
| C17-C19 | instruction-level interpreter for the used x86-64 / ARMv8 / AVX2 instructions, over abstract values | the interpreter run on symbolic words simulates the run on machine words; each round evaluated symbolically in the kernel, then induction over rounds; C19 false for three register allocations |
| C20 | the same interpreter with the AVX-512 instructions | refuted: a relation between two runs shows that 15 words are ignored; the loop alone proved as C17 |
| C21 | HAIFA construction + BLAKE2b | RFC 7693 spec; false for positive multiples of 128 octets (refuted), partial otherwise |
| C22 | RIPEMD compressors | spec equality |
| C23 | compressors with abstract cipher | equality |
| C24 | pkcs_id tables | DER parser in the spec; refuted for SHA-256, SHA-512, RIPEMD-128/256/320 |
| C25, C26 | `pow`, `strxor` | induction |
| C27-C29 | `expand_message_xmd`, `h2f::process` | RFC 9380 spec, generic in the hash; C28 refuted by an accepted length |
| C30 | specialised accumulator | false; refuted, exact description of the second result |
| C31 | `m2c_simple_swu` over any field; both suites | field identities; squares in F_q by Euler's criterion, in F_q^2 by the norm; the preconditions by exhibited roots |
| C32 | `iso_map` with the tables | polynomial identities modulo q by computation (`LVelu.v`: the tables are Vélu's formulas, scaled), lifted to all points; kernels written out |
| C33, C34 | Pedersen accumulator | Zcash spec; signed-digit uniqueness |
| C35 | counter loop with 8-bit wrap | fuel; refuted termination |
| C36-C38 | Poseidon sponge, packing | C37, C38 false: trailing zero elements / leading zero octets |
| C39 | rounds over an abstract field | composition of bijections |
| C40 | matrix generator | every generated matrix has equal columns, so the loop never ends; partial: the draws that are not refused are those of different elements |
| C41 | LFSR | linear algebra over GF(2) by computation |
| C42 | policy table | rounds of every pair proved published; the rate refuted for (128, 8) |
| C43 | operators | decomposition, Bricks, Concrete proved; refuted: S-box leaves its digit range, Bars and the permutation are not injective, matrix is not circ(2,1,1) |
| C44 | CRC wrappers over an abstract register | fold fusion |
| C45-C47 | all constructions / pack / entry points | corollaries |
| C48 | Tiger policy arithmetic | refuted: state too short for the code's indexing |
| C49, C50 | | explicit inverses |
| C51 | `hash_value.hpp` conversion to `std::array` | false for other sizes than the digest's (refuted); partial for the right size |
| C52 | CRC wrappers over a shift register | linear algebra over GF(2) polynomials, for every width and odd polynomial |
| C53 | the four tables of `original_constants.hpp` | reflection: a checker proved sound, evaluated in the kernel |
| C54 | `map_to_curve` | C31 and C32 together; refuted for kernel points of G1 by an exhibited input; for G2 no kernel point is rational |
| C55 | `h_eff`, `clear_cofactor` | computation with the curve's parameter x |
| C56 | `h2c::process` | on top of C29 |
| C57 | registers of the interpreter | a frame lemma over instructions; false of x86-64 and AVX2 |
| C58 | policies of MD4, MD5, SHA, SHA-1, SHA-2 over an external cipher | C01's refinement with the Davies-Meyer compressor; initial values computed from the primes |
| C59 | the choice of `impl_type`, with the registers each call finds | C13 with C17-C19; AVX-512: C20's independence carried through padding and extraction |
| C60 | suites and default parameters of `h2f`, `h2c` | C29, C58, C31, C32 and C54 composed; G1 except for kernel points |
| C61 | C33's model | signed digits are injective and bounded, so the difference of two encodings gives coefficients; written out in `coefficients` |
| C62 | C21's model | backwards along the chain of calls; the counter separates messages of different lengths |
| C63 | C27's model | the encoding hashed first is injective; the first block of output determines its two inputs |
| C64 | C39's model with its tables | the tables are Cauchy matrices 1 / (x_i + y_j), checked entry by entry; such matrices have trivial kernels by induction |
| C65 | C12's model | padding with the suffix is injective over both hashes; backwards from the last block through the permutation, which is a bijection |
| C66 | C44's model | x has order 2^32 - 1 modulo the polynomial: squarings checked by computation, divisors through the prime factors |
| C67 | C44's model | the division step is linear over the exclusive or |
| C68 | `MTiming.v`: the runs of C17-C20 with a record of the instructions executed, the addresses of their memory operands and the branches taken | two runs in lock step: the registers that hold pointers and loop counters are equal, those that hold data have equal shape; the record is proved complete (path, writes, reads; `SpecTiming.v`) |
| C69 | `MAcc.v`, `MConstr.v`, `MKeccak.v`, `MBlake2b.v` (the counter of the accumulator wraps at 2^64) | the accumulator invariant for messages of any length, with the counter equal to the length modulo 2^64; refuted for lengths that are multiples of 2^64 bits |
| C70 | `MPedersen.v` (the number of the segment is cast to `uint32_t`) | the accumulator invariant with base points that repeat after 2^32; a collision by exchanging two segments |
| C71 | `MAcc.v`, `MConstr.v`, `MSha.v`, `MRipemd.v`, `MTiger.v` | from C58, C22 and C11: the padded message's blocks are a prefix of the longer message's, and the digest's octets read as words are the chaining value |
| C72 | accumulator and stream processor of any construction with the byte order of the machine replaced | the two runs are related state by state; witness for wider integers with SHA-256 |
| C73 | `MPedersenDefault.v`: `MPedersen.v` with base points generated by `MFgh.v` over `MSha.v` | composition of C33, C35, C58 and C03; the group and the decoding of points are arguments |
| C74 | `MCrc.v`, conversion of a digest to an integer | from C44 and the stream of an integer's octets |
| C75 | `MStore.v`, `MStoreMore.v`: a numbered store of accumulators with creation, update, extraction and copy, for any kind of accumulator | simulation by a store of messages (for Pedersen, of messages and points), induction on programs |
| C76 | `MCrc.v` | from C44: appending octets multiplies by x^W and adds, so the remainder is fixed exactly when the trailer is the remainder; injectivity of the register in the last W bits |
| C77 | `MXmd.v`, `MSuites.v` | counting: strings of L octets with a given value modulo p, then products of fixed-length pieces |
| C78 | `MH2C.v` | a monic polynomial of degree n has at most n roots; quadratics for Z u^2 from the map's definition, and Vélu's x coordinate cleared of denominators (degree 3 and 11) |
| C79 | the hashes of C58, C22, C11 | `SpecCollide.v`: the calls of the published compression function on the padded octets; C09's chain argument carried to octets and truncated digests |
| C80 | all block hashes by name (`SpecLibrary.v`); `mixed_calls` of `MStore.v`: programs whose accumulators are of different hashes | C01, C11, C13, C21, C22, C58 brought to one form; simulation by a store of (hash, message) pairs |
| C81 | `MThreads.v`: a machine of threads that take turns; an update takes a turn for each value | invariant: what each thread was given, followed by what it would still be given alone, is constant; other threads write only to what they own; a measure of the calls left |
| C82 | the same, with accumulators that belong to no thread | the same invariant where extraction is const; refuted for hash_to_field and Pedersen by the schedule that reads twice |
| C83 | `MThrow.v`: the feeding loops over a list of reads that may fail, with the stream processor's destructor run in both cases | induction on the reads; programs reduced to those of C80 and C75 |
| C84 | `MObject.v`: construction objects with their state after every call, programs over them | invariant: the state is that after the whole blocks taken; digest by the lemmas of C01, C11, C21; restoring refuted for BLAKE2b |
| C85 | `MPosStore.v`: programs and threads with several Poseidon sponges | the invariant of C36 for each sponge; the thread lemma of C81 |
| C86 | C44's model | the parity of the register is kept by the division step when the generator has an even number of terms; the generator's own pattern divides to zero |
| C87 | `MObjects.v`: C84's objects for each Merkle-Damgard hash, with no rule kept | invariant: the state is the chaining of whole blocks of octets; digest appends the used part and the ending; induction over the program |
| C88 | `MSpongeObjects.v`: C84's objects for SHA-3 and Keccak, with no rule kept | invariant: the lanes of the state are a string of 1600 bits; digest absorbs the used part with suffix and padding and leaves the digest's words; induction over the program; collisions by cancelling the xor |
| C89 | `MObject.v` over `MBlake2b.v`: C84's objects for BLAKE2b, with no rule kept | invariant: eight 64-bit words; the compression function is RFC 7693's F, the padding zeros after the used part; induction over the program and over the blocks of a message |

## Trusted base

* Coq's kernel (8.16.1, including `vm_compute`; `coqchk` re-checks without the VM).
* Axioms: `Print Assumptions` under every property theorem says "Closed under the global context". Nothing imports
  mathcomp, Iris, std++ or another library. `coqchk -o` lists seven entries `Coq.ssr.ssrunder.Under_rel.*`; they are fields
  of a sealed module of the standard library's `ssrunder.v`, loaded because the standard library's `ssreflect` is, and no
  theorem here depends on them.
* The reading of the C++ into the model (each definition cites its lines), and the contracts of the external components
  below.

### Modelled

Paths are under `include/nil/crypto3/hash/`.

| code | model |
|---|---|
| `accumulators/hash.hpp`, `accumulators/bits_count.hpp`, `detail/block_stream_processor.hpp` | `MAcc.v`, `MPack.v` |
| `algorithm/hash.hpp`, `adaptor/hashed.hpp`, `hash_value.hpp` | `MHash.v`, `MPoseidon.v` |
| `detail/merkle_damgard_construction.hpp`, `sponge_construction.hpp`, `haifa_construction.hpp`, all paddings, `nop_finalizer.hpp` | `MConstr.v`, `MObject.v`, `MObjects.v`, `MSpongeObjects.v` |
| `keccak.hpp`, `sha3.hpp`, `detail/keccak/*` (portable), `detail/sha3/*` | `MKeccak.v` |
| `detail/keccak/keccak_x86_64_impl.hpp`, `keccak_armv8_impl.hpp`, `keccak_avx2_impl.hpp`, `keccak_avx512_impl.hpp` | `MAsm.v`, `MKeccakX86.v`, `MKeccakArm.v`, `MKeccakAvx2.v`, `MKeccakAvx512.v`, and `MTiming.v` for what an observer of their timing sees; `detail/keccak/keccak_functions.hpp`: `MKeccakSelect.v` |
| `blake2b.hpp`, `detail/blake2b/*` | `MBlake2b.v` |
| `ripemd.hpp`, `detail/ripemd/*`, `tiger.hpp`, `detail/tiger/*` | `MRipemd.v`, `MTiger.v` |
| `detail/davies_meyer_compressor.hpp` and the other compressors, `pkcs_id` tables, `detail/static_pow.hpp`, `detail/strxor.hpp` | `MMisc.v` |
| `md4.hpp`, `md5.hpp`, `sha.hpp`, `sha1.hpp`, `sha2.hpp` and their policies | `MSha.v` |
| `crc.hpp`, `detail/crc/accumulator.hpp` | `MCrc.v` |
| `h2f.hpp`, `detail/h2f/h2f_functions.hpp` | `MXmd.v` |
| `pedersen.hpp`, `find_group_hash.hpp`, `detail/pedersen/*` | `MPedersen.v`, `MFgh.v` |
| `poseidon.hpp`, `detail/poseidon/*`, `detail/reinforced_concrete/reinforced_concrete_lfsr.hpp` | `MPoseidon.v`, `MPoseidonTables.v`, `MGrain.v` |
| `detail/reinforced_concrete/*` (policy, operators, functions) | `MRC.v` |
| `detail/h2f/h2f_suites.hpp`, `detail/h2c/h2c_policy.hpp`, default parameters in `h2f.hpp`, `h2c.hpp` | `MSuites.v` |
| `h2c.hpp`, `detail/h2c/h2c_functions.hpp`, `h2c_suites.hpp` | `MH2C.v`, `MH2CTables.v` |
| copies of accumulators (implicit), programs with several of them, threads, exceptions from iterators | `MStore.v`, `MStoreMore.v`, `MThreads.v`, `MThrow.v`, `MPosStore.v` |

`MPoseidonTables.v` and `MH2CTables.v` are copied from the code by `tools/poseidon_tables.py` and `tools/h2c_tables.py`; `SpecTigerTables.v` is generated by the Tiger authors' procedure in `tools/tiger_sboxes.py`; the instruction lists `MKeccakX86.v`, `MKeccakArm.v`, `MKeccakAvx2.v` and `MKeccakAvx512.v` are translated from the headers by `tools/asm_keccak.py`; certificates for primality and inverse
matrices, and the numbers of `LH2CCert.v`, are found by `tools/pocklington.py`, `tools/poseidon_inverses.py` and `tools/h2c_cert.py` and checked by the kernel.

### Assumed of code that is not in this repository

| component | what the model assumes |
|---|---|
| `injector::inject` | the contract above: later bits may be kept, cleared or overwritten by following source bits |
| `pack`, `pack_to`, `pack_from` (for widths that are multiples of 8), `imploder`/`exploder` | re-chunking of the bit stream |
| block ciphers MD4, MD5, SHACAL, SHACAL2 | functions of key and block, arbitrary; in C58 they compute the published steps |
| `policy_type::rotl/rotr`, `extract_uint_t` | rotation; the n-th octet |
| `boost::crc_optimal` | the bitwise register of the Boost documentation |
| `marshalling`, field and group arithmetic, `vectmatmul`, `det`, `pow`, `inversed`, `random_element` | ring or group operations (the inverse of zero is zero); random draws are arguments |
| `is_square`, `sqrt`, `is_zero` of field elements | `is_square` decides squares, `sqrt` returns a root of a square, whichever one |

The meaning given to the machine instructions in `MAsm.v` is part of the trusted reading: 64-bit lanes and registers, no flags but the
zero flag of `dec`, memory as separate objects of 64-bit words. The compiler's choice of registers is a parameter where the statement
leaves it open (`rounds` in the AVX2 code); memory operands are addressed without using a register the assembly overwrites.
C68 takes the usual view of constant time: the duration of an instruction does not depend on its data operands (true of the moves, logic, shifts and rotations by constants used here), so the record of `MTiming.v` is all an observer of time and caches can see.

### Not modelled

C++ overload resolution and template instantiation errors other than those stated as properties; performance; the Boost.Accumulators
dispatch (an accumulator set is the accumulator it holds); `range` adaptor laziness;
memory other than the arrays named.  `poseidon_compressor::process_block` (`poseidon.hpp`) and `reinforced_concrete::process_block`
(`reinforced_concrete.hpp`) are templates nothing instantiates, and apply `^=` to field elements, which have no such operator; the
permutations they would call are modelled.  `poseidon_sponge_construction::reset`
calls `clear()` on a `std::array`, so it cannot be instantiated.  The `__ZKLLVM__` branch of `poseidon.hpp` calls a compiler builtin.  `raw_stream_processor.hpp`,
`hash_state.hpp`, `type_traits.hpp` and `accumulators/parameters/` only forward or select types: a call through them is the call they forward to.
