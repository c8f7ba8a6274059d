(** * Property C69: messages of 2^64 bits and more

    The accumulator counts the bits of the message in 64 bits.  The theorems on digests in PMD.v,
    PSponge.v and PBlake2b.v are about messages of less than 2^64 bits; these are about the others.
    Specification: SpecMD.v, SpecSponge.v, SpecBlake2bLong.v.  Model: MPack.v, MAcc.v, MConstr.v, MKeccak.v, MBlake2b.v.

    [octets_of_length n x] is the octet [x] repeated [n] times. *)
From Coq Require Import NArith Arith List Bool.
From Verif Require Import SpecStream SpecOctets SpecMD SpecKeccak SpecSponge SpecBlake2b SpecBlake2bLong.
From Verif Require Import MPack MAcc MConstr MKeccak MBlake2b PMD.
From Verif Require LLong LLongBlake.
Import ListNotations.

(** C69, for hashes with a length field of 64 bits (MD4, MD5, SHA-1, SHA-256, RIPEMD and, with its
    marker, Tiger): the digest of a message whose length is not a multiple of 2^64 bits is that of the
    construction with the length modulo 2^64 in the length field, as RFC 1321 prescribes.
    Missing: the multiples of 2^64 bits, where it is not (below). *)
Theorem C69_any_length_md_partial :
  forall e w bw dw iv comp inj junk os,
  md_params w bw 64 -> injector_contract e w bw inj -> block_ok w bw junk ->
  e = BOBB \/ e = LOBB -> Forall (fits 8) os ->
  (2 ^ 64 mod N.of_nat (w * bw) = 0)%N -> (N.of_nat (8 * length os) mod 2 ^ 64 <> 0)%N ->
  hash_once (md e w bw 64 dw iv comp inj) inj 8 junk os =
  Some (md_hash e w bw 64 (w * dw) one_marker iv comp (octets_bits os)) /\
  hash_once (md_tiger e w bw 64 dw iv comp inj) inj 8 junk os =
  Some (md_hash e w bw 64 (w * dw) tiger_marker iv comp (octets_bits os)).
Proof. exact LLong.md_any_64. Qed.
Print Assumptions C69_any_length_md_partial.

(** C69, for length fields of any size: the digest is the one with the length modulo 2^64 in the
    length field ... *)
Theorem C69_length_modulo_md_partial :
  forall e w bw lb dw iv comp inj junk os,
  md_params w bw lb -> injector_contract e w bw inj -> block_ok w bw junk ->
  e = BOBB \/ e = LOBB -> Forall (fits 8) os ->
  (2 ^ 64 mod N.of_nat (w * bw) = 0)%N -> (N.of_nat (8 * length os) mod 2 ^ 64 <> 0)%N ->
  hash_once (md e w bw lb dw iv comp inj) inj 8 junk os =
  Some (md_hash_as e w bw lb (w * dw) one_marker iv comp (N.of_nat (8 * length os) mod 2 ^ 64) (octets_bits os)) /\
  hash_once (md_tiger e w bw lb dw iv comp inj) inj 8 junk os =
  Some (md_hash_as e w bw lb (w * dw) tiger_marker iv comp (N.of_nat (8 * length os) mod 2 ^ 64) (octets_bits os)).
Proof. exact LLong.md_any. Qed.
Print Assumptions C69_length_modulo_md_partial.

(** ... so that with a wider field (SHA-384 and SHA-512, [lb] = 128) it is not the standard's: for every such
    message some initial value and compressor tell them apart. *)
Theorem C69_wide_length_field_refuted :
  forall e w bw lb inj junk os,
  md_params w bw lb -> injector_contract e w bw inj -> block_ok w bw junk ->
  e = BOBB \/ e = LOBB -> Forall (fits 8) os ->
  (2 ^ 64 mod N.of_nat (w * bw) = 0)%N -> (2 ^ 64 < N.of_nat (8 * length os) < 2 ^ N.of_nat lb)%N ->
  (N.of_nat (8 * length os) mod 2 ^ 64 <> 0)%N ->
  exists dw iv comp,
  hash_once (md e w bw lb dw iv comp inj) inj 8 junk os <>
  Some (md_hash e w bw lb (w * dw) one_marker iv comp (octets_bits os)).
Proof. exact LLong.md_length_wrong. Qed.
Print Assumptions C69_wide_length_field_refuted.

(** C69 is false for messages whose length is a multiple of 2^64 bits: the last block does not enter the
    digest, so that messages that differ there, and only there, collide. *)
Theorem C69_last_block_ignored_md_refuted :
  forall e w bw lb dw iv comp inj junk pre last last',
  md_params w bw lb -> injector_contract e w bw inj -> block_ok w bw junk ->
  e = BOBB \/ e = LOBB -> Forall (fits 8) (pre ++ last) -> Forall (fits 8) (pre ++ last') ->
  (2 ^ 64 mod N.of_nat (w * bw) = 0)%N ->
  8 * length last = w * bw -> 8 * length last' = w * bw -> (N.of_nat (8 * length (pre ++ last)) mod 2 ^ 64 = 0)%N ->
  let C := md e w bw lb dw iv comp inj in let T := md_tiger e w bw lb dw iv comp inj in
  (hash_once C inj 8 junk (pre ++ last) = hash_once C inj 8 junk (pre ++ last') /\
   hash_once C inj 8 junk (pre ++ last) <> None) /\
  (hash_once T inj 8 junk (pre ++ last) = hash_once T inj 8 junk (pre ++ last') /\
   hash_once T inj 8 junk (pre ++ last) <> None).
Proof. exact LLong.md_lost_pair. Qed.
Print Assumptions C69_last_block_ignored_md_refuted.

(** What the digest is then: that of the message without its last block, with 0 in the length field. *)
Theorem C69_multiples_md_partial :
  forall e w bw lb dw iv comp inj junk pre last,
  md_params w bw lb -> injector_contract e w bw inj -> block_ok w bw junk ->
  e = BOBB \/ e = LOBB -> Forall (fits 8) (pre ++ last) ->
  (2 ^ 64 mod N.of_nat (w * bw) = 0)%N ->
  8 * length last = w * bw -> (N.of_nat (8 * length (pre ++ last)) mod 2 ^ 64 = 0)%N ->
  hash_once (md e w bw lb dw iv comp inj) inj 8 junk (pre ++ last) =
  Some (md_hash_as e w bw lb (w * dw) one_marker iv comp 0 (octets_bits pre)) /\
  hash_once (md_tiger e w bw lb dw iv comp inj) inj 8 junk (pre ++ last) =
  Some (md_hash_as e w bw lb (w * dw) tiger_marker iv comp 0 (octets_bits pre)).
Proof. exact LLong.md_lost. Qed.
Print Assumptions C69_multiples_md_partial.

(** The same for BLAKE2b. *)
Theorem C69_last_block_ignored_blake2b_refuted :
  forall db ic inj junk pre last last',
  db mod 8 = 0 /\ 0 < db <= 512 -> injector_contract LOBB 64 16 ic ->
  injector_contract LOBB 64 16 inj -> block_ok 64 16 junk ->
  Forall (fits 8) (pre ++ last) -> Forall (fits 8) (pre ++ last') -> length last = 128 -> length last' = 128 ->
  (N.of_nat (8 * length (pre ++ last)) mod 2 ^ 64 = 0)%N ->
  hash_once (blake2b ic db) inj 8 junk (pre ++ last) = hash_once (blake2b ic db) inj 8 junk (pre ++ last') /\
  hash_once (blake2b ic db) inj 8 junk (pre ++ last) <> None.
Proof. exact LLong.blake2b_lost. Qed.
Print Assumptions C69_last_block_ignored_blake2b_refuted.

(** BLAKE2b at every length: what the digest is.  The counters are those of RFC 7693 modulo 2^61, and for a multiple of
    2^64 bits a final block of zeros with the counter 0 stands in the place of the last block.
    Missing: the counters and the last block of the RFC, which the code does not use for such messages. *)
Theorem C69_every_length_blake2b_partial :
  forall db ic inj junk os,
  db mod 8 = 0 /\ 0 < db <= 512 -> injector_contract LOBB 64 16 ic ->
  injector_contract LOBB 64 16 inj -> block_ok 64 16 junk -> Forall (fits 8) os -> os <> [] ->
  let counter n := (N.of_nat n mod 2 ^ 61)%N in
  hash_once (blake2b ic db) inj 8 junk os =
  Some (if (N.of_nat (8 * length os) mod 2 ^ 64 =? 0)%N
        then BLAKE2b_zero_end counter (db / 8) (firstn (length os - 128) os)
        else BLAKE2b_counting counter (db / 8) os).
Proof. exact LLongBlake.every_length. Qed.
Print Assumptions C69_every_length_blake2b_partial.
(** With the counters of the RFC, [BLAKE2b_counting] is the function of C21. *)
Theorem C69_blake2b_rfc_counters : forall nn os, BLAKE2b_counting N.of_nat nn os = BLAKE2b_observed nn os.
Proof. exact LLongBlake.counting_observed. Qed.
Print Assumptions C69_blake2b_rfc_counters.
(** The counters differ from those of the RFC from 2^61 octets on. *)
Example C69_counters : forall n, (N.of_nat n mod 2 ^ 61 = N.of_nat n <-> N.of_nat n < 2 ^ 61)%N.
Proof. intros n. split; [intros <-; apply N.mod_lt; discriminate|apply N.mod_small]. Qed.

(** SHA-3 and Keccak, whose block is not a divisor of 2^64 bits: the digest of a message of 2^64 bits is
    that of its whole blocks; what follows them does not enter it. *)
Theorem C69_partial_block_ignored_sponge_refuted :
  forall d injb C H inj junk pre last,
  sponge_size d -> injector_contract BOLB 64 (keccak_words d) injb -> sponge_hash d injb C H ->
  injector_contract BOBB 64 (keccak_words d) inj -> block_ok 64 (keccak_words d) junk ->
  Forall (fits 8) (pre ++ last) -> (N.of_nat (8 * length (pre ++ last)) = 2 ^ 64)%N ->
  8 * length pre mod (1600 - 2 * d) = 0 -> 0 < 8 * length last < 1600 - 2 * d ->
  hash_once C inj 8 junk (pre ++ last) = Some (H pre).
Proof. exact LLong.both_lost. Qed.
Print Assumptions C69_partial_block_ignored_sponge_refuted.

(** Such messages exist: 2^61 octets with the parameters of SHA-256, and with those of SHA-3. *)
Example C69_hypotheses_md :
  let pre := LLong.octets_of_length (2 ^ 61 - 64) 0 in
  let last := LLong.octets_of_length 64 1 in let last' := LLong.octets_of_length 64 2 in
  md_params 32 16 64 /\ Forall (fits 8) (pre ++ last) /\ Forall (fits 8) (pre ++ last') /\ last <> last' /\
  (2 ^ 64 mod N.of_nat (32 * 16) = 0)%N /\ 8 * length last = 32 * 16 /\ 8 * length last' = 32 * 16 /\
  (N.of_nat (8 * length (pre ++ last)) mod 2 ^ 64 = 0)%N.
Proof. exact LLong.long_example. Qed.
Example C69_hypotheses_sponge : forall d, In d [224; 256; 384; 512] ->
  exists k, let pre := LLong.octets_of_length (2 ^ 61 - k) 0 in let last := LLong.octets_of_length k 1 in
  Forall (fits 8) (pre ++ last) /\ (N.of_nat (8 * length (pre ++ last)) = 2 ^ 64)%N /\
  8 * length pre mod (1600 - 2 * d) = 0 /\ 0 < 8 * length last < 1600 - 2 * d.
Proof. exact LLong.long_sponge_example. Qed.
