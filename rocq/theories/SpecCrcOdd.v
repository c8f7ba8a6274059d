(** * Specification: odd numbers of flipped bits and CRCs *)
From Coq Require Import NArith Arith List Bool.
From Verif Require Import SpecStream SpecCrc.
Import ListNotations.

(** In how many bits two octet strings of one length differ. *)
Definition flipped (a b : list N) : nat :=
  length (filter (fun p => xorb (fst p) (snd p)) (combine (flat_map octet_msb_first a) (flat_map octet_msb_first b))).

(** The number of terms of the generator: the polynomial x^W, which the parameters leave out, and those of [poly]. *)
Definition generator_terms (P : crc_parameters) : nat :=
  S (length (filter (fun i => N.testbit (poly P) (N.of_nat i)) (seq 0 (W P)))).

(** CRC-16/CCITT-FALSE: x^16 + x^12 + x^5 + 1, four terms.  The PNG CRC-32 has fifteen. *)
Definition CRC16_CCITT : crc_parameters := Mk_crc 16 0x1021 0xFFFF 0 false false.
Example CRC16_CCITT_check : CRC CRC16_CCITT [49; 50; 51; 52; 53; 54; 55; 56; 57]%N = 0x29B1%N.
Proof. vm_compute. reflexivity. Qed.
Example terms : generator_terms CRC16_CCITT = 4 /\ generator_terms CRC32_PNG = 15.
Proof. split; reflexivity. Qed.
Example flipped_example : flipped [1; 128; 7]%N [0; 129; 0]%N = 5.
Proof. reflexivity. Qed.
