(** * Properties C12-C16 and C65, and C02-C06 for the sponge hashes

    Specification: SpecKeccak.v (FIPS 202), SpecOctets.v (octets of ranges and histories),
    SpecSponge.v (which hash is which function).  Model: MKeccak.v, MConstr.v, MAcc.v, MPack.v. *)
From Coq Require Import NArith Arith List Bool.
From Verif Require Import SpecStream SpecOctets SpecKeccak MPack MAcc MConstr MKeccak SpecSponge SpecSpongeBits.
From Verif Require LKeccakP LKeccakBij LSpongeStmt LSpongeCol LSpongeBits.
Import ListNotations.

(** C12: SHA-3 digests are those of FIPS 202. *)
Theorem C12_sha3_fips202 :
  forall d injb inj junk os,
  sponge_size d -> injector_contract BOLB 64 (keccak_words d) injb ->
  injector_contract BOBB 64 (keccak_words d) inj -> block_ok 64 (keccak_words d) junk ->
  Forall (fits 8) os -> (N.of_nat (8 * length os) < 2 ^ 64)%N ->
  hash_once (sha3 injb d) inj 8 junk os = Some (bits_octets_lsb (SHA3 d (octets_bits_lsb os))).
Proof. exact LSpongeStmt.sha3_once. Qed.
Print Assumptions C12_sha3_fips202.

(** C13: Keccak digests, with the portable permutation. *)
Theorem C13_keccak :
  forall d injb inj junk os,
  sponge_size d -> injector_contract BOLB 64 (keccak_words d) injb ->
  injector_contract BOBB 64 (keccak_words d) inj -> block_ok 64 (keccak_words d) junk ->
  Forall (fits 8) os -> (N.of_nat (8 * length os) < 2 ^ 64)%N ->
  hash_once (keccak_1600 permute injb d) inj 8 junk os =
  Some (bits_octets_lsb (Keccak d (octets_bits_lsb os))).
Proof. exact LSpongeStmt.keccak_once. Qed.
Print Assumptions C13_keccak.

Example C12_hypotheses :
  sponge_size 256 /\ injector_contract BOLB 64 (keccak_words 256) (inj_keep BOLB 64 17) /\
  injector_contract BOBB 64 (keccak_words 256) (inj_run BOBB 64 17) /\
  block_ok 64 (keccak_words 256) (repeat 5%N 17) /\ sponge_hash 256 (inj_keep BOLB 64 17)
    (sha3 (inj_keep BOLB 64 17) 256) (SHA3_octets 256).
Proof. exact LSpongeStmt.sponge_example. Qed.

(** C02 and C03 for the sponge hashes: any pieces, each with its own element width, give the
    published digest of the concatenated octets. *)
Theorem C02_C03_pieces_sponge :
  forall d injb inj junk C H ps,
  sponge_size d -> injector_contract BOLB 64 (keccak_words d) injb -> sponge_hash d injb C H ->
  injector_contract BOBB 64 (keccak_words d) inj -> block_ok 64 (keccak_words d) junk ->
  Forall (fun p => fst p mod 8 = 0 /\ 0 < fst p /\ 64 mod fst p = 0 /\ Forall (fits (fst p)) (snd p)) ps ->
  (N.of_nat (8 * length (pieces_octets host_order ps)) < 2 ^ 64)%N ->
  exists a, hash_pieces C inj (acc_init C junk) ps = Some a /\
    acc_result C a = Some (H (pieces_octets host_order ps)).
Proof. exact LSpongeStmt.sponge_pieces. Qed.
Print Assumptions C02_C03_pieces_sponge.

(** C02 for the sponge hashes: pieces against one call. *)
Theorem C02_pieces_equal_one_call_sponge :
  forall d injb inj junk C H (pieces : list (list N)),
  sponge_size d -> injector_contract BOLB 64 (keccak_words d) injb -> sponge_hash d injb C H ->
  injector_contract BOBB 64 (keccak_words d) inj -> block_ok 64 (keccak_words d) junk ->
  Forall (Forall (fits 8)) pieces -> (N.of_nat (8 * length (concat pieces)) < 2 ^ 64)%N ->
  exists a x, hash_pieces C inj (acc_init C junk) (map (fun p => (8, p)) pieces) = Some a /\
    acc_result C a = Some x /\ hash_once C inj 8 junk (concat pieces) = Some x.
Proof. exact LSpongeStmt.sponge_pieces_once. Qed.
Print Assumptions C02_pieces_equal_one_call_sponge.

(** C03 for the sponge hashes: a range of wide integers. *)
Theorem C03_wide_elements_sponge :
  forall d injb inj junk C H vb xs,
  sponge_size d -> injector_contract BOLB 64 (keccak_words d) injb -> sponge_hash d injb C H ->
  injector_contract BOBB 64 (keccak_words d) inj -> block_ok 64 (keccak_words d) junk ->
  In vb [8; 16; 32; 64] -> Forall (fits vb) xs ->
  (N.of_nat (8 * length (range_octets host_order vb xs)) < 2 ^ 64)%N ->
  hash_once C inj vb junk xs = Some (H (range_octets host_order vb xs)).
Proof. exact LSpongeStmt.sponge_wide. Qed.
Print Assumptions C03_wide_elements_sponge.

(** C04 for the sponge hashes. *)
Theorem C04_extraction_repeatable_sponge :
  forall d injb inj junk C H ops,
  sponge_size d -> injector_contract BOLB 64 (keccak_words d) injb -> sponge_hash d injb C H ->
  injector_contract BOBB 64 (keccak_words d) inj -> block_ok 64 (keccak_words d) junk ->
  Forall (fun o => match o with
                   | OpHash vb xs => vb mod 8 = 0 /\ 0 < vb /\ 64 mod vb = 0 /\ Forall (fits vb) xs
                   | OpExtract => True end) ops ->
  (N.of_nat (8 * length (history_octets host_order ops)) < 2 ^ 64)%N ->
  run_ops C inj (acc_init C junk) ops = Some (expected_octets host_order H [] ops).
Proof. exact LSpongeStmt.sponge_history. Qed.
Print Assumptions C04_extraction_repeatable_sponge.
(** Pieces of four widths and the octets they stand for; a history and the octets hashed by its end. *)
Example C02_C04_sponge_hypotheses :
  let ps := [(8, [1; 2; 3]%N); (64, [0x0b0a090807060504]%N); (16, []); (32, [0x0f0e0d0c]%N); (16, [0x1110]%N)] in
  Forall (fun p => fst p mod 8 = 0 /\ 0 < fst p /\ 64 mod fst p = 0 /\ Forall (fits (fst p)) (snd p)) ps /\
  pieces_octets host_order ps = map N.of_nat (seq 1 17) /\
  history_octets host_order (OpExtract :: map (fun p => OpHash (fst p) (snd p)) ps ++ [OpExtract]) = map N.of_nat (seq 1 17).
Proof.
  cbv zeta. split; [|split; vm_compute; reflexivity].
  apply Forall_forall; intros p H; repeat (destruct H as [H|H]; [subst p|]); try destruct H;
    (split; [reflexivity|split; [apply Nat.lt_0_succ|split; [reflexivity|apply Forall_forall; intros x H]]]);
    repeat (destruct H as [H|H]; [subst x; reflexivity|]); destruct H.
Qed.

(** C05, C06 for the sponge hashes, whole octets: block feeds of [n] octets append exactly these
    octets; nothing else reaches the digest. *)
Theorem C05_C06_octet_feeds_sponge_partial :
  forall d injb inj junk C H fs,
  sponge_size d -> injector_contract BOLB 64 (keccak_words d) injb -> sponge_hash d injb C H ->
  injector_contract BOBB 64 (keccak_words d) inj -> block_ok 64 (keccak_words d) junk ->
  Forall (fun f => block_ok 64 (keccak_words d) (fst f) /\ 0 < snd f <= 8 * keccak_words d) fs ->
  (N.of_nat (8 * length (blocks_octets BOBB 64 fs)) < 2 ^ 64)%N ->
  exists a, acc_feeds C inj (acc_init C junk) (map (fun f => FBlock (fst f) (8 * snd f)) fs) = Some a /\
    total a = N.of_nat (8 * length (blocks_octets BOBB 64 fs)) /\
    acc_result C a = Some (H (blocks_octets BOBB 64 fs)).
Proof. exact LSpongeStmt.sponge_feeds. Qed.
Print Assumptions C05_C06_octet_feeds_sponge_partial.

(** C05 is false for SHA-3 when the bit count is not a whole number of octets: two blocks that
    agree on the one bit that counts give different digests. *)
Theorem C05_stale_bits_sponge_refuted :
  let C := sha3 (inj_keep BOLB 64 17) 256 in
  let run v := match acc_feeds C (inj_keep BOBB 64 17) (acc_init C (repeat 0%N 17)) [FBlock v 1] with
               | Some a => acc_result C a | None => None end in
  let v := (2 ^ 63 :: repeat 0 16)%N in
  let v' := (2 ^ 63 + 2 ^ 56 :: repeat 0 16)%N in
  firstn 1 (stream BOBB 64 v) = firstn 1 (stream BOBB 64 v') /\
  run v <> None /\ run v' <> None /\ run v <> run v'.
Proof. exact LSpongeStmt.sha3_stale_bits. Qed.
Print Assumptions C05_stale_bits_sponge_refuted.

(** C05, C06, C14 for the sponge hashes, to the bit: the digest after feeding any blocks with any numbers of bits.  If suffix
    and padding fit in the last block it is that of a bit string that agrees with the message in all whole octets; of the bits of an
    incomplete last octet it has at most those that [taken_for] (SpecSpongeBits.v) names, in the reverse order, the others come
    from memory.  Otherwise the padding accesses memory outside the block. *)
Theorem C06_bit_feeds_sponge_partial :
  forall d injb inj junk C suffix (fs : list (list N * nat)),
  let r := 1600 - 2 * d in
  sponge_size d -> injector_contract BOLB 64 (keccak_words d) injb -> suffixed_hash d injb C suffix ->
  injector_contract BOBB 64 (keccak_words d) inj -> block_ok 64 (keccak_words d) junk ->
  Forall (fun f => block_ok 64 (keccak_words d) (fst f) /\ 0 < snd f <= 64 * keccak_words d) fs ->
  let M := flat_map (fun f => firstn (snd f) (stream BOBB 64 (fst f))) fs in
  (N.of_nat (length M) < 2 ^ 64)%N ->
  exists a, acc_feeds C inj (acc_init C junk) (map (fun f => FBlock (fst f) (snd f)) fs) = Some a /\
    (length M mod r + length suffix + 2 <= r -> exists s, taken_for M s /\
       acc_result C a = Some (bits_octets_lsb (keccak_sponge r (s ++ suffix) d))) /\
    (r < length M mod r + length suffix + 2 -> acc_result C a = None).
Proof.
  intros d injb inj junk C suffix fs r Hd HB HC HI Hj HF.
  exact (LSpongeBits.any_blocks d Hd injb HB C suffix HC inj HI junk fs Hj HF).
Qed.
Print Assumptions C06_bit_feeds_sponge_partial.
(** Feeds of 3, 1088 and 5 bits, and a string taken for the thirteen bits of 0x61 and 10110: of the last five bits the last two
    are kept, reversed, the other three are arbitrary. *)
Example C06_bit_feeds_sponge_hypotheses :
  Forall (fun f => block_ok 64 (keccak_words 256) (fst f) /\ 0 < snd f <= 64 * keccak_words 256)
    [(repeat 0xFFFFFFFF%N 17, 3); (repeat 0x12345678%N 17, 1088); (repeat 1%N 17, 5)] /\
  taken_for (octets_bits [0x61]%N ++ [true; false; true; true; false]) (octets_bits_lsb [0x61]%N ++ [true; false; true; false; true]).
Proof. exact LSpongeBits.taken_example. Qed.

(** C14 is false: the one-bit messages 1 and 0 have the same digest, for every digest size and for
    SHA-3 and Keccak alike... *)
Theorem C14_bit_strings_collide_refuted :
  forall d injb inj junk C H v v',
  sponge_size d -> injector_contract BOLB 64 (keccak_words d) injb -> sponge_hash d injb C H ->
  injector_contract BOBB 64 (keccak_words d) inj -> block_ok 64 (keccak_words d) junk ->
  block_ok 64 (keccak_words d) v -> block_ok 64 (keccak_words d) v' ->
  hd 0%N v = (2 ^ 63)%N -> hd 0%N v' = 0%N ->
  firstn 1 (stream BOBB 64 v) = [true] /\ firstn 1 (stream BOBB 64 v') = [false] /\
  exists a a' x, acc_feeds C inj (acc_init C junk) [FBlock v 1] = Some a /\
    acc_feeds C inj (acc_init C junk) [FBlock v' 1] = Some a' /\
    acc_result C a = Some x /\ acc_result C a' = Some x.
Proof. exact LSpongeStmt.sponge_one_bit. Qed.
Print Assumptions C14_bit_strings_collide_refuted.

(** ... and a message one bit short of a block makes the padding access memory outside the block
    ([None] in the model). *)
Theorem C14_overrun_refuted :
  forall d injb inj junk C H v,
  sponge_size d -> injector_contract BOLB 64 (keccak_words d) injb -> sponge_hash d injb C H ->
  injector_contract BOBB 64 (keccak_words d) inj -> block_ok 64 (keccak_words d) junk ->
  block_ok 64 (keccak_words d) v ->
  exists a, acc_feeds C inj (acc_init C junk) [FBlock v (64 * keccak_words d - 1)] = Some a /\
    acc_result C a = None.
Proof. exact LSpongeBits.sponge_overrun. Qed.
Print Assumptions C14_overrun_refuted.
Example C14_hypotheses :
  block_ok 64 (keccak_words 256) ((2 ^ 63)%N :: repeat 3%N 16) /\ block_ok 64 (keccak_words 256) (0%N :: repeat 3%N 16).
Proof.
  split; (split; [reflexivity|apply Forall_forall; intros x H]);
    repeat (destruct H as [H|H]; [subst x; reflexivity|]); destruct H.
Qed.

(** C14, what is true: on whole octets the padded messages (with any domain suffix) are distinct. *)
Theorem C14_octet_padding_injective_partial :
  forall r sfx o1 o2, Forall (fits 8) o1 -> Forall (fits 8) o2 ->
  (octets_bits_lsb o1 ++ sfx) ++ pad10star1 r (length (octets_bits_lsb o1 ++ sfx)) =
  (octets_bits_lsb o2 ++ sfx) ++ pad10star1 r (length (octets_bits_lsb o2 ++ sfx)) -> o1 = o2.
Proof. exact LSpongeStmt.padded_inj. Qed.
Print Assumptions C14_octet_padding_injective_partial.

(** C15: the portable permutation is KECCAK-f[1600] of FIPS 202; bit [64 (5y + x) + z] of the
    state is bit [z] of word [5y + x]. *)
Theorem C15_permute_fips202 :
  forall st, block_ok 64 25 st -> stream LOLB 64 (permute st) = keccak_f (stream LOLB 64 st).
Proof. exact LKeccakP.permute_string. Qed.
Print Assumptions C15_permute_fips202.
(** A state of small words, and the zero state with the first word of its image. *)
Example C15_hypotheses : block_ok 64 25 (map N.of_nat (seq 7 25)) /\ block_ok 64 25 (repeat 0%N 25) /\
  nth 0 (permute (repeat 0%N 25)) 0%N = 0xf1258f7940e1dde7%N.
Proof.
  split; [|split]; [| |vm_compute; reflexivity];
    (split; [reflexivity|apply Forall_forall; intros x H]);
    repeat (destruct H as [H|H]; [subst x; reflexivity|]); destruct H.
Qed.

(** C16: it is a permutation of the 2^1600 states. *)
Theorem C16_permute_injective :
  forall s1 s2, block_ok 64 25 s1 -> block_ok 64 25 s2 -> permute s1 = permute s2 -> s1 = s2.
Proof. exact LKeccakBij.permute_injective. Qed.
Print Assumptions C16_permute_injective.

Theorem C16_permute_surjective :
  forall t, block_ok 64 25 t -> exists s, block_ok 64 25 s /\ permute s = t.
Proof. exact LKeccakBij.permute_surjective. Qed.
Print Assumptions C16_permute_surjective.

Example C16_hypotheses : block_ok 64 25 (map N.of_nat (seq 7 25)) /\
  permute (map N.of_nat (seq 7 25)) <> map N.of_nat (seq 7 25).
Proof. exact LSpongeStmt.permute_example. Qed.

(** C65: digests of SHA-3 and Keccak of one size that agree, for different messages or for one hash of each kind,
    come from different final states that give the same digest, or from different sequences of blocks that lead to
    states with the same capacity part.  Both alternatives name the states: those after all blocks, and those before
    the last block. *)
Theorem C65_sponge_collision :
  forall d, sponge_size d ->
  forall injb inj junk C suffix os injb' inj' junk' C' suffix' os' x,
  suffixed_hash d injb C suffix -> injector_contract BOLB 64 (keccak_words d) injb ->
  injector_contract BOBB 64 (keccak_words d) inj -> block_ok 64 (keccak_words d) junk ->
  Forall (fits 8) os -> (N.of_nat (8 * length os) < 2 ^ 64)%N ->
  suffixed_hash d injb' C' suffix' -> injector_contract BOLB 64 (keccak_words d) injb' ->
  injector_contract BOBB 64 (keccak_words d) inj' -> block_ok 64 (keccak_words d) junk' ->
  Forall (fits 8) os' -> (N.of_nat (8 * length os') < 2 ^ 64)%N ->
  (os, suffix) <> (os', suffix') -> hash_once C inj 8 junk os = Some x -> hash_once C' inj' 8 junk' os' = Some x ->
  let r := 1600 - 2 * d in
  let B := padded_blocks r os suffix in
  let B' := padded_blocks r os' suffix' in
  state_after r B <> state_after r B' /\ squeezed r d (state_after r B) = squeezed r d (state_after r B') \/
  removelast B <> removelast B' /\
    capacity_part r (state_after r (removelast B)) = capacity_part r (state_after r (removelast B')).
Proof. exact LSpongeCol.collision. Qed.
Print Assumptions C65_sponge_collision.
(** Collisions of 32-bit digests, between SHA-3 and Keccak and of Keccak with itself. *)
Example C65_hypotheses :
  let injb := inj_keep BOLB 64 24 in
  let inj := inj_keep BOBB 64 24 in
  let junk := repeat 0%N 24 in
  sponge_size 32 /\ injector_contract BOLB 64 (keccak_words 32) injb /\ injector_contract BOBB 64 (keccak_words 32) inj /\
  block_ok 64 (keccak_words 32) junk /\
  hash_once (sha3 injb 32) inj 8 junk [0xfe; 0x8b; 0x04]%N = Some [0x45; 0x54; 0x57; 0x06]%N /\
  hash_once (keccak_1600 permute injb 32) inj 8 junk [0x0a; 0x55; 0x02]%N = Some [0x45; 0x54; 0x57; 0x06]%N /\
  hash_once (keccak_1600 permute injb 32) inj 8 junk [0xb8; 0x8e; 0x00]%N = Some [0x0f; 0x50; 0x4b; 0x14]%N /\
  hash_once (keccak_1600 permute injb 32) inj 8 junk [0x0c; 0x0f; 0x02]%N = Some [0x0f; 0x50; 0x4b; 0x14]%N.
Proof. exact LSpongeCol.pairs. Qed.
