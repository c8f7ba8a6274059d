(** * Property C59: keccak_1600 on every platform

    Model: MKeccakSelect.v, MKeccak.v and the files of the assembly.  Specification: SpecKeccak.v (FIPS 202). *)
From Coq Require Import NArith ZArith Arith List Bool.
From Verif Require Import SpecStream MPack MAcc MKeccak MAsm MKeccakX86 MKeccakAvx2 MKeccakAvx512 MKeccakSelect SpecKeccak SpecSponge.
From Verif Require LAsmDigest.
Import ListNotations.

(** C59 for the portable code, x86-64, ARMv8 and AVX2: whatever the registers and the uninitialised memory hold at each
    call, the digest of every octet string is Keccak's.  Missing: AVX-512, of which it is false; see C19 for the
    registers AVX2 must not use for its operand. *)
Theorem C59_platforms_partial :
  forall d injb inj junk os perm,
  sponge_size d -> injector_contract BOLB 64 (keccak_words d) injb ->
  injector_contract BOBB 64 (keccak_words d) inj -> block_ok 64 (keccak_words d) junk ->
  Forall (fits 8) os -> (N.of_nat (8 * length os) < 2 ^ 64)%N ->
  (forall st, block_ok 64 25 st -> platform_result st (perm st)) ->
  hash_once (keccak_1600 perm injb d) inj 8 junk os = Some (bits_octets_lsb (Keccak d (octets_bits_lsb os))).
Proof. exact LAsmDigest.platforms. Qed.
Print Assumptions C59_platforms_partial.

(** With AVX-512 two messages of one block that agree in the octets 0-15, 40-55, 80-95 and 120-135 have the same
    digest. *)
Theorem C59_avx512_collisions_refuted :
  forall fuel rs vs d injb inj junk os os',
  length vs = 8 -> Forall (fun l => length l = 8) vs ->
  sponge_size d -> injector_contract BOLB 64 (keccak_words d) injb ->
  injector_contract BOBB 64 (keccak_words d) inj -> block_ok 64 (keccak_words d) junk ->
  Forall (fits 8) os -> Forall (fits 8) os' -> length os = length os' -> 8 * length os < 1600 - 2 * d ->
  (forall p, p / 8 mod 5 < 2 -> nth p os 0%N = nth p os' 0%N) ->
  hash_once (keccak_1600 (avx512_result fuel rs vs) injb d) inj 8 junk os =
  hash_once (keccak_1600 (avx512_result fuel rs vs) injb d) inj 8 junk os'.
Proof. exact LAsmDigest.avx512_collisions. Qed.
Print Assumptions C59_avx512_collisions_refuted.

(** Hypotheses met: a platform whose calls find other registers for every state; two messages that
    collide; and a run of the AVX-512 code that has a result. *)
Example C59_platform : forall st, block_ok 64 25 st ->
  platform_result st (match x86_permute 24 (repeat (CW (nth 0 st 0%N)) 16) (repeat (CP 1 2) 10) (repeat (CW 4) 25) st with
                      | Some r => r | None => [] end).
Proof. exact LAsmDigest.platform_example. Qed.
Example C59_messages :
  let os := map N.of_nat (seq 0 16 ++ [65]) in
  let os' := map N.of_nat (seq 0 16 ++ [66]) in
  os <> os' /\ length os = length os' /\ 8 * length os < 1600 - 2 * 256 /\
  (forall p, p / 8 mod 5 < 2 -> nth p os 0%N = nth p os' 0%N) /\
  avx512_permute 12 (repeat (CW 1) 24) (repeat (repeat (CW 0) 8) 8) (map N.of_nat (seq 1 25)) <> None.
Proof. exact LAsmDigest.avx512_example. Qed.
