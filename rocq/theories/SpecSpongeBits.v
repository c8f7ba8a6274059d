(** * Specification: what SHA-3 and Keccak take for a message that ends inside an octet

    FIPS 202 (section B.1) numbers the bits of an octet from the least significant one; the accumulator stores the bits it is
    fed from the most significant one.  For whole octets the two agree.  Of a message of [8 k + r] bits the octets are
    taken as they are; of the last octet the padding keeps the [r] least significant bits, where the accumulator has
    the bits of the message numbered [7], [6], ..., [8 - r], the first of which may not be part of the message. *)
From Coq Require Import NArith Arith List Bool.
From Verif Require Import SpecStream SpecKeccak.
Import ListNotations.

(** [s] is a bit string that may be taken for the message [M]. *)
Definition taken_for (M s : list bool) : Prop :=
  let k := length M / 8 in
  let r := length M mod 8 in
  exists os last, Forall (fits 8) os /\ octets_bits os = firstn (8 * k) M /\
    s = octets_bits_lsb os ++ last /\ length last = r /\
    forall i, i < r -> 7 - i < r -> nth i last false = nth (8 * k + (7 - i)) M false.
