(** * Model of the bit-stream helpers used by the constructions

    [pack], [pack_to], [pack_from] and [injector] are declared in headers of a sibling
    repository (nil/crypto3/detail/pack.hpp, inject.hpp), which is not in /repo: only their use
    (e.g. detail/block_stream_processor.hpp:81, detail/merkle_damgard_padding.hpp:68-77),
    their documentation (docs/pack.md) and their tests (test/pack.cpp) are. *)
From Coq Require Import NArith Arith List Bool.
From Verif Require Import SpecStream.
Import ListNotations.

(** docs/pack.md:1-80 (description), used in detail/block_stream_processor.hpp:81,
    detail/merkle_damgard_construction.hpp:128 and 158, detail/merkle_damgard_padding.hpp:73,
    detail/sponge_construction.hpp:115, detail/haifa_construction.hpp:125.
    [pack<e1, e2, w1, w2>]: the output words, read in order [e2], carry the same bit stream as
    the input words read in order [e1].  Every case of test/pack.cpp is checked against this
    definition in [MPackTests.v]. *)
Definition pack (e1 e2 : endian) (w1 w2 : nat) (xs : list N) : list N :=
  words_of_stream e2 w2 (stream e1 w1 xs).

(** detail/block_stream_processor.hpp:81: [pack_to<endian_type, value_bits, word_bits>], from values
    in the order [h] of the caller to words in the order [e] of the hash.  docs/pack.md does not say
    which order [pack_to] takes its input in.  [h] is the order of the machine: test/find_group_hash.cpp:
    131-143 expects the 32-bit value 3 to hash like the octets 3, 0, 0, 0 under SHA-256, whose order is
    [BOBB], and test/pedersen.cpp:190-215 rests on the same reading of the 20 segment numbers it hashes.
    For octets ([w1 = 8]) both big-bit orders are the same. *)
Definition pack_to (h e : endian) (w1 w2 : nat) (xs : list N) : list N := pack h e w1 w2 xs.

(** detail/merkle_damgard_construction.hpp:128: [pack_from<endian_type, word_bits, octet_bits>].
    The output values are octets, for which the order of the machine is the same as [e] (both put the
    most significant bit first in every instance). *)
Definition pack_from (e : endian) (w1 w2 : nat) (xs : list N) : list N := pack e e w1 w2 xs.

(** A [std::array<word_type, bw>] of [w]-bit words. *)
Definition block_ok (w bw : nat) (b : list N) : Prop := length b = bw /\ Forall (fits w) b.

(** [injector<e, w, bw, w*bw>::inject(src, n, dst, seen, off)], as used in
    accumulators/hash.hpp:135 and 152 and in the paddings.  [inj src n dst seen off] is the new
    content of [dst]; the reference argument [seen] is advanced by [n] by the callers below.
    [src] is either a block or a single word. *)
Definition injector := list N -> nat -> list N -> nat -> nat -> list N.

(** Assumed behaviour of the injector (sibling repository): within bounds, the first [seen] bits
    of [dst] are kept, the next [n] bits are bits [off .. off+n-1] of [src], and every later bit
    is either kept, or cleared, or the next bit of [src]. *)
Record injector_contract (e : endian) (w bw : nat) (inj : injector) : Prop := {
  inj_wf : forall src n dst seen off,
    block_ok w bw dst -> Forall (fits w) src ->
    seen + n <= w * bw -> off + n <= w * length src ->
    block_ok w bw (inj src n dst seen off);
  inj_head : forall src n dst seen off,
    block_ok w bw dst -> Forall (fits w) src ->
    seen + n <= w * bw -> off + n <= w * length src ->
    firstn (seen + n) (stream e w (inj src n dst seen off)) =
    firstn seen (stream e w dst) ++ firstn n (skipn off (stream e w src));
  inj_tail : forall src n dst seen off i,
    block_ok w bw dst -> Forall (fits w) src ->
    seen + n <= w * bw -> off + n <= w * length src ->
    seen + n <= i < w * bw ->
    In (nth i (stream e w (inj src n dst seen off)) false)
       [nth i (stream e w dst) false; false;
        nth (off + (i - seen)) (stream e w src) false] }.

(** Bounds: an [inject] call that would read or write outside its arrays is undefined behaviour
    in the code; the model returns [None]. *)
Definition inject (inj : injector) (w bw : nat) (src : list N) (n : nat) (dst : list N)
    (seen off : nat) : option (list N) :=
  if (seen + n <=? w * bw) && (off + n <=? w * length src)
  then Some (inj src n dst seen off) else None.

(** Two injectors meeting the contract: one keeps every later bit, the other lets the rest of
    the source run on to the end of the block. *)
Definition inj_keep (e : endian) (w bw : nat) : injector := fun src n dst seen off =>
  words_of_stream e w
    (firstn seen (stream e w dst) ++ firstn n (skipn off (stream e w src)) ++
     skipn (seen + n) (stream e w dst)).

Definition inj_run (e : endian) (w bw : nat) : injector := fun src n dst seen off =>
  words_of_stream e w
    (firstn (w * bw) (firstn seen (stream e w dst) ++ skipn off (stream e w src) ++
                      repeat false (w * bw))).
