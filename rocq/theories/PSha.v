(** * Property C58: MD4, MD5, SHA, SHA-1 and SHA-2

    Specification: SpecSha.v, SpecMDOctets.v.  Model: MSha.v, MConstr.v, MMisc.v. *)
From Coq Require Import NArith Arith List Bool.
From Verif Require Import SpecStream SpecWords MPack MAcc MConstr SpecSha.
From Verif Require MSha LSha LMDStmt.
Import ListNotations.
Local Open Scope N_scope.

(** What is asked of the block cipher, which is another library's: with a key of 16 words of [w] bits it makes of [k]
    words what the steps of the published compression function make of them. *)
Definition cipher_computes (cipher : list N -> list N -> list N) (w k : nat) (steps : list N -> list N -> list N) : Prop :=
  forall key text, length key = 16%nat -> Forall (fits w) key -> length text = k -> Forall (fits w) text ->
  cipher key text = steps key text.

(** C58: the digest of every octet string shorter than 2^61 octets is the published one. *)
Theorem C58_md4 : forall cipher inj junk os, cipher_computes cipher 32 4 md4_steps ->
  injector_contract LOBB 32 16 inj -> block_ok 32 16 junk -> Forall (fits 8) os -> N.of_nat (8 * length os) < 2 ^ 64 ->
  hash_once (MSha.md4 cipher inj) inj 8 junk os = Some (MD4 os).
Proof. exact LSha.md4_once. Qed.
Print Assumptions C58_md4.
Theorem C58_md5 : forall cipher inj junk os, cipher_computes cipher 32 4 md5_steps ->
  injector_contract LOBB 32 16 inj -> block_ok 32 16 junk -> Forall (fits 8) os -> N.of_nat (8 * length os) < 2 ^ 64 ->
  hash_once (MSha.md5 cipher inj) inj 8 junk os = Some (MD5 os).
Proof. exact LSha.md5_once. Qed.
Print Assumptions C58_md5.
Theorem C58_sha : forall cipher inj junk os, cipher_computes cipher 32 5 sha0_steps ->
  injector_contract BOBB 32 16 inj -> block_ok 32 16 junk -> Forall (fits 8) os -> N.of_nat (8 * length os) < 2 ^ 64 ->
  hash_once (MSha.sha cipher inj) inj 8 junk os = Some (SHA0 os).
Proof. exact LSha.sha_once. Qed.
Print Assumptions C58_sha.
Theorem C58_sha1 : forall cipher inj junk os, cipher_computes cipher 32 5 sha1_steps ->
  injector_contract BOBB 32 16 inj -> block_ok 32 16 junk -> Forall (fits 8) os -> N.of_nat (8 * length os) < 2 ^ 64 ->
  hash_once (MSha.sha1 cipher inj) inj 8 junk os = Some (SHA1 os).
Proof. exact LSha.sha1_once. Qed.
Print Assumptions C58_sha1.
Theorem C58_sha224 : forall cipher inj junk os, cipher_computes cipher 32 8 sha256_steps ->
  injector_contract BOBB 32 16 inj -> block_ok 32 16 junk -> Forall (fits 8) os -> N.of_nat (8 * length os) < 2 ^ 64 ->
  hash_once (MSha.sha2_224 cipher inj) inj 8 junk os = Some (SHA224 os).
Proof. exact LSha.sha2_224_once. Qed.
Print Assumptions C58_sha224.
Theorem C58_sha256 : forall cipher inj junk os, cipher_computes cipher 32 8 sha256_steps ->
  injector_contract BOBB 32 16 inj -> block_ok 32 16 junk -> Forall (fits 8) os -> N.of_nat (8 * length os) < 2 ^ 64 ->
  hash_once (MSha.sha2_256 cipher inj) inj 8 junk os = Some (SHA256 os).
Proof. exact LSha.sha2_256_once. Qed.
Print Assumptions C58_sha256.
Theorem C58_sha384 : forall cipher inj junk os, cipher_computes cipher 64 8 sha512_steps ->
  injector_contract BOBB 64 16 inj -> block_ok 64 16 junk -> Forall (fits 8) os -> N.of_nat (8 * length os) < 2 ^ 64 ->
  hash_once (MSha.sha2_384 cipher inj) inj 8 junk os = Some (SHA384 os).
Proof. exact LSha.sha2_384_once. Qed.
Print Assumptions C58_sha384.
Theorem C58_sha512 : forall cipher inj junk os, cipher_computes cipher 64 8 sha512_steps ->
  injector_contract BOBB 64 16 inj -> block_ok 64 16 junk -> Forall (fits 8) os -> N.of_nat (8 * length os) < 2 ^ 64 ->
  hash_once (MSha.sha2_512 cipher inj) inj 8 junk os = Some (SHA512 os).
Proof. exact LSha.sha2_512_once. Qed.
Print Assumptions C58_sha512.

(** Hypotheses met: the steps themselves are such a cipher; see C01_hypotheses (PMD.v) for the others.  The
    specification has the published digests of "abc", and the model with that cipher the same. *)
Example C58_cipher : cipher_computes sha256_steps 32 8 sha256_steps.
Proof. intros key text _ _ _ _. reflexivity. Qed.
Example C58_abc :
  map (fun h => be_value (h [97; 98; 99])) [MD4; MD5; SHA0; SHA1; SHA256; SHA512] =
  [0xa448017aaf21d8525fc10ae87aa6729d; 0x900150983cd24fb0d6963f7d28e17f72;
   0x0164b8a914cd2a5e74c4f7ff082c4d97f1edf880; 0xa9993e364706816aba3e25717850c26c9cd0d89d;
   0xba7816bf8f01cfea414140de5dae2223b00361a396177a9cb410ff61f20015ad;
   0xddaf35a193617abacc417349ae20413112e6fa4e89a97ea20a9eeee64b55d39a2192992a274fc1a836ba3c23a3feebbd454d4423643ce80e2a9ac94fa54ca49f].
Proof. vm_compute. reflexivity. Qed.
Example C58_model_abc :
  option_map be_value (hash_once (MSha.sha2_224 sha256_steps (inj_keep BOBB 32 16)) (inj_keep BOBB 32 16) 8 (repeat 7 16) [97; 98; 99]) =
  Some 0x23097d223405d8228642a477bda255b32aadbce4bda0b3f7e36c9da7.
Proof. vm_compute. reflexivity. Qed.
