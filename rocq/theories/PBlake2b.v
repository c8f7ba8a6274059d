(** * Properties C21, C49 and C62, and C02-C06 for BLAKE2b

    Specification: SpecBlake2b.v (RFC 7693), SpecWords.v, SpecOctets.v.  Model: MBlake2b.v,
    MConstr.v (HAIFA construction), MAcc.v, MPack.v.

    [ic] is the injector the padding uses, [inj] the one the accumulator uses. *)
From Coq Require Import NArith Arith List Bool.
From Verif Require Import SpecStream SpecOctets SpecWords SpecBlake2b MPack MAcc MConstr MBlake2b.
From Verif Require LBlake2bStmt LBlake2bBij LBlake2bCol.
Import ListNotations.

(** C21, for messages that are empty or do not fill their last 128-octet block: the digest is that
    of RFC 7693.  Missing: the positive multiples of 128 octets, where it is not (next theorem). *)
Theorem C21_blake2b_rfc7693_partial :
  forall db ic inj junk os,
  db mod 8 = 0 /\ 0 < db <= 512 -> injector_contract LOBB 64 16 ic ->
  injector_contract LOBB 64 16 inj -> block_ok 64 16 junk ->
  Forall (fits 8) os -> (N.of_nat (8 * length os) < 2 ^ 64)%N ->
  length os = 0 \/ length os mod 128 <> 0 ->
  hash_once (blake2b ic db) inj 8 junk os = Some (BLAKE2b (db / 8) os).
Proof. exact LBlake2bStmt.b_rfc. Qed.
Print Assumptions C21_blake2b_rfc7693_partial.

(** C21 is false: 128 zero octets have another digest than in RFC 7693. *)
Theorem C21_blake2b_whole_blocks_refuted :
  forall db ic inj junk, In db [160; 256; 384; 512] ->
  injector_contract LOBB 64 16 ic -> injector_contract LOBB 64 16 inj -> block_ok 64 16 junk ->
  hash_once (blake2b ic db) inj 8 junk (repeat 0%N 128) <> None /\
  hash_once (blake2b ic db) inj 8 junk (repeat 0%N 128) <> Some (BLAKE2b (db / 8) (repeat 0%N 128)).
Proof. exact LBlake2bStmt.b_wrong. Qed.
Print Assumptions C21_blake2b_whole_blocks_refuted.

(** What the digest of every octet string is: RFC 7693 with the last block of a message of
    positive length divisible by 128 compressed twice. *)
Theorem C21_blake2b_all_lengths_partial :
  forall db ic inj junk,
  db mod 8 = 0 /\ 0 < db <= 512 -> injector_contract LOBB 64 16 ic ->
  injector_contract LOBB 64 16 inj -> block_ok 64 16 junk ->
  forall os, Forall (fits 8) os -> (N.of_nat (8 * length os) < 2 ^ 64)%N ->
  hash_once (blake2b ic db) inj 8 junk os = Some (BLAKE2b_observed (db / 8) os).
Proof. exact LBlake2bStmt.b_once. Qed.
Print Assumptions C21_blake2b_all_lengths_partial.

(** C02, C03 for BLAKE2b: any pieces, each with its own element width. *)
Theorem C02_C03_pieces_blake2b :
  forall db ic inj junk,
  db mod 8 = 0 /\ 0 < db <= 512 -> injector_contract LOBB 64 16 ic ->
  injector_contract LOBB 64 16 inj -> block_ok 64 16 junk ->
  forall ps,
  Forall (fun p => fst p mod 8 = 0 /\ 0 < fst p /\ 64 mod fst p = 0 /\ Forall (fits (fst p)) (snd p)) ps ->
  (N.of_nat (8 * length (pieces_octets host_order ps)) < 2 ^ 64)%N ->
  exists a, hash_pieces (blake2b ic db) inj (acc_init (blake2b ic db) junk) ps = Some a /\
    acc_result (blake2b ic db) a = Some (BLAKE2b_observed (db / 8) (pieces_octets host_order ps)).
Proof. exact LBlake2bStmt.b_pieces. Qed.
Print Assumptions C02_C03_pieces_blake2b.

(** C02 for BLAKE2b: pieces against one call. *)
Theorem C02_pieces_equal_one_call_blake2b :
  forall db ic inj junk,
  db mod 8 = 0 /\ 0 < db <= 512 -> injector_contract LOBB 64 16 ic ->
  injector_contract LOBB 64 16 inj -> block_ok 64 16 junk ->
  forall (pieces : list (list N)), Forall (Forall (fits 8)) pieces ->
  (N.of_nat (8 * length (concat pieces)) < 2 ^ 64)%N ->
  exists a x,
    hash_pieces (blake2b ic db) inj (acc_init (blake2b ic db) junk) (map (fun p => (8, p)) pieces) = Some a /\
    acc_result (blake2b ic db) a = Some x /\ hash_once (blake2b ic db) inj 8 junk (concat pieces) = Some x.
Proof. exact LBlake2bStmt.b_pieces_once. Qed.
Print Assumptions C02_pieces_equal_one_call_blake2b.

(** C03 for BLAKE2b: a range of wide integers hashes as its octets, least significant first. *)
Theorem C03_wide_elements_blake2b :
  forall db ic inj junk,
  db mod 8 = 0 /\ 0 < db <= 512 -> injector_contract LOBB 64 16 ic ->
  injector_contract LOBB 64 16 inj -> block_ok 64 16 junk ->
  forall vb xs, In vb [8; 16; 32; 64] -> Forall (fits vb) xs ->
  (N.of_nat (8 * length (range_octets host_order vb xs)) < 2 ^ 64)%N ->
  hash_once (blake2b ic db) inj vb junk xs = Some (BLAKE2b_observed (db / 8) (range_octets host_order vb xs)).
Proof. exact LBlake2bStmt.b_wide. Qed.
Print Assumptions C03_wide_elements_blake2b.

(** C04 for BLAKE2b. *)
Theorem C04_extraction_repeatable_blake2b :
  forall db ic inj junk,
  db mod 8 = 0 /\ 0 < db <= 512 -> injector_contract LOBB 64 16 ic ->
  injector_contract LOBB 64 16 inj -> block_ok 64 16 junk ->
  forall ops,
  Forall (fun o => match o with
                   | OpHash vb xs => vb mod 8 = 0 /\ 0 < vb /\ 64 mod vb = 0 /\ Forall (fits vb) xs
                   | OpExtract => True end) ops ->
  (N.of_nat (8 * length (history_octets host_order ops)) < 2 ^ 64)%N ->
  run_ops (blake2b ic db) inj (acc_init (blake2b ic db) junk) ops =
  Some (expected_octets host_order (BLAKE2b_observed (db / 8)) [] ops).
Proof. exact LBlake2bStmt.b_history. Qed.
Print Assumptions C04_extraction_repeatable_blake2b.

(** C05 for BLAKE2b, to the bit: neither the initial cache, nor what the injectors do outside
    their contract, nor excess bits of the supplied blocks reach the digest. *)
Theorem C05_no_stale_memory_blake2b :
  forall db ic ic' inj inj' junk junk' (fs fs' : list (list N * nat)),
  let C := blake2b ic db in
  let C' := blake2b ic' db in
  let ok := fun f => block_ok 64 16 (fst f) /\ 0 < snd f <= 1024 in
  let bits := flat_map (fun f => firstn (snd f) (stream LOBB 64 (fst f))) in
  let feeds := map (fun f => FBlock (fst f) (snd f)) in
  db mod 8 = 0 /\ 0 < db <= 512 ->
  injector_contract LOBB 64 16 ic -> injector_contract LOBB 64 16 ic' ->
  injector_contract LOBB 64 16 inj -> injector_contract LOBB 64 16 inj' ->
  block_ok 64 16 junk -> block_ok 64 16 junk' ->
  Forall ok fs -> Forall ok fs' -> bits fs = bits fs' -> (N.of_nat (length (bits fs)) < 2 ^ 64)%N ->
  exists a a' d, acc_feeds C inj (acc_init C junk) (feeds fs) = Some a /\
    acc_feeds C' inj' (acc_init C' junk') (feeds fs') = Some a' /\
    acc_result C a = Some d /\ acc_result C' a' = Some d.
Proof. exact LBlake2bStmt.b_no_stale. Qed.
Print Assumptions C05_no_stale_memory_blake2b.

(** C06 for BLAKE2b: block feeds append exactly the stated bits; an incomplete last octet counts
    as one filled with zero bits. *)
Theorem C06_bit_exact_block_feeds_blake2b :
  forall db ic inj junk,
  db mod 8 = 0 /\ 0 < db <= 512 -> injector_contract LOBB 64 16 ic ->
  injector_contract LOBB 64 16 inj -> block_ok 64 16 junk ->
  forall (fs : list (list N * nat)),
  Forall (fun f => block_ok 64 16 (fst f) /\ 0 < snd f <= 1024) fs ->
  let M := flat_map (fun f => firstn (snd f) (stream LOBB 64 (fst f))) fs in
  (N.of_nat (length M) < 2 ^ 64)%N ->
  exists a,
    acc_feeds (blake2b ic db) inj (acc_init (blake2b ic db) junk) (map (fun f => FBlock (fst f) (snd f)) fs) = Some a /\
    total a = N.of_nat (length M) /\
    acc_result (blake2b ic db) a = Some (BLAKE2b_bits_observed (db / 8) M).
Proof. exact LBlake2bStmt.b_feeds. Qed.
Print Assumptions C06_bit_exact_block_feeds_blake2b.

Example C21_hypotheses : (512 mod 8 = 0 /\ 0 < 512 <= 512) /\
  injector_contract LOBB 64 16 (inj_keep LOBB 64 16) /\ injector_contract LOBB 64 16 (inj_run LOBB 64 16) /\
  block_ok 64 16 (map N.of_nat (seq 3 16)) /\
  Forall (fun f => block_ok 64 16 (fst f) /\ 0 < snd f <= 1024)
    [(repeat 0xFFFFFFFF%N 16, 3); (repeat 0x12345678%N 16, 1024); (repeat 1%N 16, 509)].
Proof. exact LBlake2bStmt.b_example. Qed.

(** C49: for a fixed message block the twelve rounds permute the 2^1024 values of the sixteen
    working words. *)
Theorem C49_mixing_injective :
  forall M v1 v2, block_ok 64 16 v1 -> block_ok 64 16 v2 ->
  blake2b_mix M v1 = blake2b_mix M v2 -> v1 = v2.
Proof. exact LBlake2bBij.mix_injective. Qed.
Print Assumptions C49_mixing_injective.

Theorem C49_mixing_surjective :
  forall M v, block_ok 64 16 v -> exists u, block_ok 64 16 u /\ blake2b_mix M u = v.
Proof. exact LBlake2bBij.mix_surjective. Qed.
Print Assumptions C49_mixing_surjective.

(** It stays among them. *)
Theorem C49_mixing_closed :
  forall M v, block_ok 64 16 v -> block_ok 64 16 (blake2b_mix M v).
Proof. exact LBlake2bBij.mix_ok. Qed.
Print Assumptions C49_mixing_closed.

Example C49_hypotheses : block_ok 64 16 (map N.of_nat (seq 3 16)) /\
  blake2b_mix (map N.of_nat (seq 50 16)) (map N.of_nat (seq 3 16)) <> map N.of_nat (seq 3 16).
Proof. exact LBlake2bStmt.mix_example. Qed.

(** C62: two octet strings with one 512-bit digest contain a collision of the compression function F, between
    a call made for one and a call made for the other (whatever their lengths; see C21). *)
Theorem C62_collision_512 :
  forall ic ic' inj inj' junk junk' os os' d,
  injector_contract LOBB 64 16 ic -> injector_contract LOBB 64 16 ic' ->
  injector_contract LOBB 64 16 inj -> injector_contract LOBB 64 16 inj' ->
  block_ok 64 16 junk -> block_ok 64 16 junk' -> Forall (fits 8) os -> Forall (fits 8) os' ->
  (N.of_nat (8 * length os) < 2 ^ 64)%N -> (N.of_nat (8 * length os') < 2 ^ 64)%N -> os <> os' ->
  hash_once (blake2b ic 512) inj 8 junk os = Some d ->
  hash_once (blake2b ic' 512) inj' 8 junk' os' = Some d ->
  F_collision_among (observed_calls 64 os) (observed_calls 64 os').
Proof. exact LBlake2bCol.digest_collision_512. Qed.
Print Assumptions C62_collision_512.

(** For shorter digests: such a collision, or different final calls whose results agree on the octets kept. *)
Theorem C62_collision_truncated :
  forall db ic ic' inj inj' junk junk' os os' d, db mod 8 = 0 /\ 0 < db <= 512 ->
  injector_contract LOBB 64 16 ic -> injector_contract LOBB 64 16 ic' ->
  injector_contract LOBB 64 16 inj -> injector_contract LOBB 64 16 inj' ->
  block_ok 64 16 junk -> block_ok 64 16 junk' -> Forall (fits 8) os -> Forall (fits 8) os' ->
  (N.of_nat (8 * length os) < 2 ^ 64)%N -> (N.of_nat (8 * length os') < 2 ^ 64)%N -> os <> os' ->
  hash_once (blake2b ic db) inj 8 junk os = Some d ->
  hash_once (blake2b ic' db) inj' 8 junk' os' = Some d ->
  F_collision_among (observed_calls (db / 8) os) (observed_calls (db / 8) os') \/
  final_call (db / 8) os <> final_call (db / 8) os' /\
  firstn (db / 8) (le_octets 8 (F_value (final_call (db / 8) os))) =
  firstn (db / 8) (le_octets 8 (F_value (final_call (db / 8) os'))).
Proof. exact LBlake2bCol.digest_collision. Qed.
Print Assumptions C62_collision_truncated.

(** The calls named are those made: the digest is the truncated result of the final call, and every other
    call's result is the state of the next one. *)
Theorem C62_calls :
  forall nn os, BLAKE2b_observed nn os = firstn nn (le_octets 8 (F_value (final_call nn os))) /\
  map F_value (removelast (observed_calls nn os)) = map (fun c => fst (fst (fst c))) (tl (observed_calls nn os)).
Proof. exact (fun nn os => conj (LBlake2bCol.observed_final nn os) (LBlake2bCol.calls_linked nn os)). Qed.
Print Assumptions C62_calls.

(** A colliding pair for one-octet digests. *)
Example C62_hypotheses : forall ic inj junk os, injector_contract LOBB 64 16 ic -> injector_contract LOBB 64 16 inj ->
  block_ok 64 16 junk -> In os [[5]; [24]]%N -> hash_once (blake2b ic 8) inj 8 junk os = Some [0xcf]%N.
Proof. exact LBlake2bCol.pair_8. Qed.
