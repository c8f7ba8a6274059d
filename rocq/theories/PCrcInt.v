(** * Property C74: a CRC taken as an integer

    Specification: SpecCrc.v, [swap_octets] (SpecHost.v).  Model: MCrc.v. *)
From Coq Require Import NArith Arith List Bool.
From Verif Require Import SpecStream SpecHost SpecCrc MCrc.
From Verif Require LCrcInt LCrc PCrc.
Import ListNotations.

(** C74, what holds: the integer is the checksum with its octets in the opposite order.  Missing: the order. *)
Theorem C74_integer_swapped_partial : forall cc P it os,
  crc_ok P -> PCrc.computes cc P -> Forall (fits 8) os ->
  exists s, stream_range cc it (crc_init cc) os = Some s /\
    as_integer (W P) (crc_result cc (W P) s) = swap_octets (W P / 8) (CRC P os).
Proof. exact LCrcInt.integer_swapped. Qed.
Print Assumptions C74_integer_swapped_partial.

(** C74 is false: the CRC-32 of "a" is 0xe8b7be43. *)
Theorem C74_integer_is_checksum_refuted : forall cc it, PCrc.computes cc CRC32_PNG ->
  exists s, stream_range cc it (crc_init cc) [97%N] = Some s /\ CRC CRC32_PNG [97%N] = 0xe8b7be43%N /\
    as_integer 32 (crc_result cc 32 s) = 0x43beb7e8%N.
Proof. exact LCrcInt.integer_a. Qed.
Print Assumptions C74_integer_is_checksum_refuted.

Example C74_hypotheses : crc_ok CRC32_PNG /\ exists cc, PCrc.computes cc CRC32_PNG.
Proof. exact LCrc.hypotheses. Qed.
