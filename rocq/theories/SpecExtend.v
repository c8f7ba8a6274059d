(** * Specification: extending a Merkle-Damgard message whose digest is known

    The padding of a message depends on its length only; a digest that is the whole chaining value can be chained on. *)
From Coq Require Import NArith Arith List Bool.
From Verif Require Import SpecStream SpecWords SpecMD SpecMDOctets SpecSha SpecRipemd SpecTiger SpecTigerTables MPack MAcc.
From Verif Require MSha MRipemd MTiger PSha.
Import ListNotations.

Section Extend.
Context (big : bool) (n bw lo : nat) (marker : N).
(** What is appended to a message of [len] octets. *)
Definition suffix (len : nat) : list N :=
  [marker] ++ repeat 0%N (pad_zeros (n * bw) (len + 1 + lo)) ++
  (let l := octets_le lo (N.of_nat (8 * len)) in if big then rev l else l).
(** From the digest [d] of a message of [len] octets, the digest of that message followed by its padding and by [s]:
    the digest's octets as words are the value chained on; only [d], [len] and [s] enter. *)
Definition extend (comp : list N -> list N -> list N) (d : list N) (len : nat) (s : list N) : list N :=
  let whole := len + length (suffix len) + length s in
  to_octets big n (fold_left comp (map (to_words big n) (chunks (n * bw) (s ++ suffix whole))) (to_words big n d)).
End Extend.

(** The hashes whose digest is the whole chaining value. *)
Definition davies_meyer32 (steps : list N -> list N -> list N) (H M : list N) : list N := feed_forward 32 H (steps M H).
Inductive full_state_hash (inj : injector) : construction -> (nat -> list N) -> (list N -> nat -> list N -> list N) -> Prop :=
| FS_md4 cipher : PSha.cipher_computes cipher 32 4 md4_steps ->
    full_state_hash inj (MSha.md4 cipher inj) (suffix false 4 16 8 0x80) (extend false 4 16 8 0x80 (davies_meyer32 md4_steps))
| FS_md5 cipher : PSha.cipher_computes cipher 32 4 md5_steps ->
    full_state_hash inj (MSha.md5 cipher inj) (suffix false 4 16 8 0x80) (extend false 4 16 8 0x80 (davies_meyer32 md5_steps))
| FS_sha cipher : PSha.cipher_computes cipher 32 5 sha0_steps ->
    full_state_hash inj (MSha.sha cipher inj) (suffix true 4 16 8 0x80) (extend true 4 16 8 0x80 (davies_meyer32 sha0_steps))
| FS_sha1 cipher : PSha.cipher_computes cipher 32 5 sha1_steps ->
    full_state_hash inj (MSha.sha1 cipher inj) (suffix true 4 16 8 0x80) (extend true 4 16 8 0x80 (davies_meyer32 sha1_steps))
| FS_sha256 cipher : PSha.cipher_computes cipher 32 8 sha256_steps ->
    full_state_hash inj (MSha.sha2_256 cipher inj) (suffix true 4 16 8 0x80) (extend true 4 16 8 0x80 sha256_compress)
| FS_sha512 cipher : PSha.cipher_computes cipher 64 8 sha512_steps ->
    full_state_hash inj (MSha.sha2_512 cipher inj) (suffix true 8 16 16 0x80) (extend true 8 16 16 0x80 sha512_compress)
| FS_ripemd128 : full_state_hash inj (MRipemd.ripemd128 inj) (suffix false 4 16 8 0x80) (extend false 4 16 8 0x80 RIPEMD128_compress)
| FS_ripemd160 : full_state_hash inj (MRipemd.ripemd160 inj) (suffix false 4 16 8 0x80) (extend false 4 16 8 0x80 RIPEMD160_compress)
| FS_ripemd256 : full_state_hash inj (MRipemd.ripemd256 inj) (suffix false 4 16 8 0x80) (extend false 4 16 8 0x80 RIPEMD256_compress)
| FS_ripemd320 : full_state_hash inj (MRipemd.ripemd320 inj) (suffix false 4 16 8 0x80) (extend false 4 16 8 0x80 RIPEMD320_compress)
| FS_tiger p C : MTiger.tiger 192 (3 + p) inj = Some C ->
    full_state_hash inj C (suffix false 8 8 8 0x01) (extend false 8 8 8 0x01 (SpecTiger.compress tables (3 + p))).
