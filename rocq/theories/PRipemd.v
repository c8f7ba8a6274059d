(** * Properties C22 and C50 (RIPEMD)

    Specification: SpecRipemd.v, SpecMDOctets.v.  Model: MRipemd.v. *)
From Coq Require Import NArith Arith List Bool.
From Verif Require Import SpecStream MPack MAcc MConstr SpecRipemd SpecBij MRipemd.
From Verif Require LRipemd.
Import ListNotations.
Local Open Scope N_scope.

(** C22: the block compression functions are the published ones. *)
Theorem C22_ripemd128_compression : forall state block,
  length state = 4%nat -> Forall (fits 32) state ->
  ripemd128_process_block state block = RIPEMD128_compress state block.
Proof. exact (fun s b L F => proj1 (LRipemd.process128 s b (conj L F))). Qed.
Print Assumptions C22_ripemd128_compression.
Theorem C22_ripemd160_compression : forall state block,
  length state = 5%nat -> Forall (fits 32) state ->
  ripemd160_process_block state block = RIPEMD160_compress state block.
Proof. exact (fun s b L F => proj1 (LRipemd.process160 s b (conj L F))). Qed.
Print Assumptions C22_ripemd160_compression.
Theorem C22_ripemd256_compression : forall state block,
  length state = 8%nat -> Forall (fits 32) state ->
  ripemd256_process_block state block = RIPEMD256_compress state block.
Proof. exact (fun s b L F => proj1 (LRipemd.process256 s b (conj L F))). Qed.
Print Assumptions C22_ripemd256_compression.
Theorem C22_ripemd320_compression : forall state block,
  length state = 10%nat -> Forall (fits 32) state ->
  ripemd320_process_block state block = RIPEMD320_compress state block.
Proof. exact (fun s b L F => proj1 (LRipemd.process320 s b (conj L F))). Qed.
Print Assumptions C22_ripemd320_compression.

Example C22_compression_hypotheses :
  length ripemd320_iv = 10%nat /\ Forall (fits 32) ripemd320_iv.
Proof. exact (LRipemd.st_iv 10 ripemd320_iv eq_refl). Qed.

(** C22: the digests are the published ones, for every octet string shorter than 2^61 octets. *)
Theorem C22_ripemd128_digest : forall inj junk os,
  injector_contract LOBB 32 16 inj -> block_ok 32 16 junk ->
  Forall (fits 8) os -> N.of_nat (8 * length os) < 2 ^ 64 ->
  hash_once (ripemd128 inj) inj 8 junk os = Some (RIPEMD128 os).
Proof. exact LRipemd.ripemd128_once. Qed.
Print Assumptions C22_ripemd128_digest.
Theorem C22_ripemd160_digest : forall inj junk os,
  injector_contract LOBB 32 16 inj -> block_ok 32 16 junk ->
  Forall (fits 8) os -> N.of_nat (8 * length os) < 2 ^ 64 ->
  hash_once (ripemd160 inj) inj 8 junk os = Some (RIPEMD160 os).
Proof. exact LRipemd.ripemd160_once. Qed.
Print Assumptions C22_ripemd160_digest.
Theorem C22_ripemd256_digest : forall inj junk os,
  injector_contract LOBB 32 16 inj -> block_ok 32 16 junk ->
  Forall (fits 8) os -> N.of_nat (8 * length os) < 2 ^ 64 ->
  hash_once (ripemd256 inj) inj 8 junk os = Some (RIPEMD256 os).
Proof. exact LRipemd.ripemd256_once. Qed.
Print Assumptions C22_ripemd256_digest.
Theorem C22_ripemd320_digest : forall inj junk os,
  injector_contract LOBB 32 16 inj -> block_ok 32 16 junk ->
  Forall (fits 8) os -> N.of_nat (8 * length os) < 2 ^ 64 ->
  hash_once (ripemd320 inj) inj 8 junk os = Some (RIPEMD320 os).
Proof. exact LRipemd.ripemd320_once. Qed.
Print Assumptions C22_ripemd320_digest.

(** Hypotheses met: see C01_hypotheses (PMD.v); the model run on "abc". *)
Example C22_model_abc : option_map SpecWords.be_value
  (hash_once (ripemd160 (inj_keep LOBB 32 16)) (inj_keep LOBB 32 16) 8 (repeat 7 16) [97; 98; 99]) =
  Some 0x8eb208f7e05d987a9b044a8e98c6b087f15a0bfc.
Proof. vm_compute. reflexivity. Qed.

(** C50 (RIPEMD): for a fixed block the line function is a bijection of the values of 32-bit words.
    For RIPEMD-128 and -160 the lines are independent and each is a bijection; for -256 and -320 the
    lines exchange words and the pair is one. *)
Theorem C50_ripemd128_lines : forall block, exists line1 line2,
  bijective_on words4 line1 /\ bijective_on words4 line2 /\
  forall v, ripemd128_lines block v = (line1 (fst v), line2 (snd v)).
Proof. exact (fun b => LRipemd.to_line4 _ (LRipemd.lines128_bij b)). Qed.
Print Assumptions C50_ripemd128_lines.
Theorem C50_ripemd160_lines : forall block, exists line1 line2,
  bijective_on words5 line1 /\ bijective_on words5 line2 /\
  forall v, ripemd160_lines block v = (line1 (fst v), line2 (snd v)).
Proof. exact (fun b => LRipemd.to_line5 _ (LRipemd.lines160_bij b)). Qed.
Print Assumptions C50_ripemd160_lines.
Theorem C50_ripemd256_lines : forall block,
  bijective_on (fun v => words4 (fst v) /\ words4 (snd v)) (ripemd256_lines block).
Proof. exact (fun b => LRipemd.to_pair4 _ (LRipemd.lines256_bij b)). Qed.
Print Assumptions C50_ripemd256_lines.
Theorem C50_ripemd320_lines : forall block,
  bijective_on (fun v => words5 (fst v) /\ words5 (snd v)) (ripemd320_lines block).
Proof. exact (fun b => LRipemd.to_pair5 _ (LRipemd.lines320_bij b)). Qed.
Print Assumptions C50_ripemd320_lines.

Example C50_ripemd_hypotheses : words5 (0x67452301, 0xefcdab89, 0x98badcfe, 0x10325476, 0xc3d2e1f0).
Proof. repeat split. Qed.
