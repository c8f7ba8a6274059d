(** * Specification: what a collision of a published Merkle-Damgard hash means for its compression function *)
From Coq Require Import NArith Arith List Bool.
From Verif Require Import SpecStream SpecWords SpecMD SpecMDOctets SpecSha SpecRipemd SpecTiger SpecTigerTables SpecExtend MPack MAcc.
From Verif Require MSha MRipemd MTiger PSha.
Import ListNotations.

(** A published hash: order of octets, octets of a word, words of a block, octets of the length field, marker, initial
    value, compression function, octets of the digest. *)
Record published := { big : bool; word : nat; block : nat; len_field : nat; mark : N; init : list N;
                      compress : list N -> list N -> list N; out : nat }.

(** The calls of the compression function made for a message, the state after them, and its digest. *)
Definition message_blocks (h : published) (os : list N) : list (list N) :=
  map (to_words (big h) (word h)) (chunks (word h * block h) (padded (big h) (word h) (block h) (len_field h) (mark h) os)).
Definition calls (h : published) (os : list N) : list (list N * list N) := comp_calls (compress h) (init h) (message_blocks h os).
Definition final_state (h : published) (os : list N) : list N := fold_left (compress h) (message_blocks h os) (init h).
Definition output (h : published) (state : list N) : list N := firstn (out h) (to_octets (big h) (word h) state).

Definition dm (b : bool) (iv : list N) steps (o : nat) : published := Build_published b 4 16 8 0x80 iv (davies_meyer32 steps) o.
Definition rmd (iv : list N) comp (o : nat) : published := Build_published false 4 16 8 0x80 iv comp o.
Inductive implements (inj : injector) : construction -> published -> Prop :=
| I_md4 cipher : PSha.cipher_computes cipher 32 4 md4_steps -> implements inj (MSha.md4 cipher inj) (dm false md4_H0 md4_steps 16)
| I_md5 cipher : PSha.cipher_computes cipher 32 4 md5_steps -> implements inj (MSha.md5 cipher inj) (dm false md4_H0 md5_steps 16)
| I_sha cipher : PSha.cipher_computes cipher 32 5 sha0_steps -> implements inj (MSha.sha cipher inj) (dm true sha1_H0 sha0_steps 20)
| I_sha1 cipher : PSha.cipher_computes cipher 32 5 sha1_steps -> implements inj (MSha.sha1 cipher inj) (dm true sha1_H0 sha1_steps 20)
| I_sha224 cipher : PSha.cipher_computes cipher 32 8 sha256_steps ->
    implements inj (MSha.sha2_224 cipher inj) (Build_published true 4 16 8 0x80 sha224_H0 sha256_compress 28)
| I_sha256 cipher : PSha.cipher_computes cipher 32 8 sha256_steps ->
    implements inj (MSha.sha2_256 cipher inj) (Build_published true 4 16 8 0x80 sha256_H0 sha256_compress 32)
| I_sha384 cipher : PSha.cipher_computes cipher 64 8 sha512_steps ->
    implements inj (MSha.sha2_384 cipher inj) (Build_published true 8 16 16 0x80 sha384_H0 sha512_compress 48)
| I_sha512 cipher : PSha.cipher_computes cipher 64 8 sha512_steps ->
    implements inj (MSha.sha2_512 cipher inj) (Build_published true 8 16 16 0x80 sha512_H0 sha512_compress 64)
| I_ripemd128 : implements inj (MRipemd.ripemd128 inj) (rmd (firstn 4 IV5) RIPEMD128_compress 16)
| I_ripemd160 : implements inj (MRipemd.ripemd160 inj) (rmd IV5 RIPEMD160_compress 20)
| I_ripemd256 : implements inj (MRipemd.ripemd256 inj) (rmd (firstn 4 IV5 ++ firstn 4 IV5') RIPEMD256_compress 32)
| I_ripemd320 : implements inj (MRipemd.ripemd320 inj) (rmd (IV5 ++ IV5') RIPEMD320_compress 40)
| I_tiger p C : MTiger.tiger 192 (3 + p) inj = Some C ->
    implements inj C (Build_published false 8 8 8 0x01 SpecTiger.H0 (SpecTiger.compress tables (3 + p)) 24).
