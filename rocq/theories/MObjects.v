(** * Model: the construction objects of the Merkle-Damgard hashes of the library *)
From Coq Require Import NArith Arith List Bool.
From Verif Require Import SpecStream SpecWords MPack MAcc MConstr MMisc SpecSha SpecRipemd SpecTiger SpecTigerTables SpecCollide MObject.
From Verif Require MSha MRipemd MTiger PSha.
Import ListNotations.

(** md4.hpp:61-73, md5.hpp:67-79, sha.hpp:61-73, sha1.hpp:61-73, sha2.hpp:87-99 over detail/davies_meyer_compressor.hpp, as
    [MSha.dm_hash]. *)
Definition dm_object (e : endian) (w dw : nat) (iv : list N) (cipher : list N -> list N -> list N) (inj : injector) : object :=
  md_object e w 16 (w * 2) dw iv (davies_meyer cipher (state_adder w)) (merkle_damgard_padding inj e w 16).
(** ripemd.hpp:274-328, as [MRipemd.ripemd]. *)
Definition ripemd_object (dw : nat) (iv : list N) (process_block : list N -> list N -> list N) (inj : injector) : object :=
  md_object LOBB 32 16 64 dw iv process_block (merkle_damgard_padding inj LOBB 32 16).
(** tiger.hpp:79-131, as [MTiger.tiger]. *)
Definition tiger_object (passes : nat) (iv : list N) (inj : injector) : object :=
  md_object LOBB 64 8 64 3 iv (MTiger.tiger_process_block passes) (tiger_padding inj LOBB 64 8).

(** Each object with the published hash it is for: the files above and those cited at the initial values and process_block
    functions named. *)
Inductive object_of (inj : injector) : object -> published -> Prop :=
| O_md4 cipher : PSha.cipher_computes cipher 32 4 md4_steps ->
    object_of inj (dm_object LOBB 32 4 MSha.md4_iv cipher inj) (dm false md4_H0 md4_steps 16)
| O_md5 cipher : PSha.cipher_computes cipher 32 4 md5_steps ->
    object_of inj (dm_object LOBB 32 4 MSha.md5_iv cipher inj) (dm false md4_H0 md5_steps 16)
| O_sha cipher : PSha.cipher_computes cipher 32 5 sha0_steps ->
    object_of inj (dm_object BOBB 32 5 MSha.sha_iv cipher inj) (dm true sha1_H0 sha0_steps 20)
| O_sha1 cipher : PSha.cipher_computes cipher 32 5 sha1_steps ->
    object_of inj (dm_object BOBB 32 5 MSha.sha1_iv cipher inj) (dm true sha1_H0 sha1_steps 20)
| O_sha224 cipher : PSha.cipher_computes cipher 32 8 sha256_steps ->
    object_of inj (dm_object BOBB 32 7 MSha.sha2_224_iv cipher inj) (Build_published true 4 16 8 0x80 sha224_H0 sha256_compress 28)
| O_sha256 cipher : PSha.cipher_computes cipher 32 8 sha256_steps ->
    object_of inj (dm_object BOBB 32 8 MSha.sha2_256_iv cipher inj) (Build_published true 4 16 8 0x80 sha256_H0 sha256_compress 32)
| O_sha384 cipher : PSha.cipher_computes cipher 64 8 sha512_steps ->
    object_of inj (dm_object BOBB 64 6 MSha.sha2_384_iv cipher inj) (Build_published true 8 16 16 0x80 sha384_H0 sha512_compress 48)
| O_sha512 cipher : PSha.cipher_computes cipher 64 8 sha512_steps ->
    object_of inj (dm_object BOBB 64 8 MSha.sha2_512_iv cipher inj) (Build_published true 8 16 16 0x80 sha512_H0 sha512_compress 64)
| O_ripemd128 : object_of inj (ripemd_object 4 MRipemd.ripemd128_iv MRipemd.ripemd128_process_block inj) (rmd (firstn 4 IV5) RIPEMD128_compress 16)
| O_ripemd160 : object_of inj (ripemd_object 5 MRipemd.ripemd160_iv MRipemd.ripemd160_process_block inj) (rmd IV5 RIPEMD160_compress 20)
| O_ripemd256 : object_of inj (ripemd_object 8 MRipemd.ripemd256_iv MRipemd.ripemd256_process_block inj)
    (rmd (firstn 4 IV5 ++ firstn 4 IV5') RIPEMD256_compress 32)
| O_ripemd320 : object_of inj (ripemd_object 10 MRipemd.ripemd320_iv MRipemd.ripemd320_process_block inj) (rmd (IV5 ++ IV5') RIPEMD320_compress 40)
| O_tiger p iv : MTiger.tiger_iv 192 = Some iv ->
    object_of inj (tiger_object (3 + p) iv inj)
      (Build_published false 8 8 8 0x01 SpecTiger.H0 (SpecTiger.compress tables (3 + p)) 24).
