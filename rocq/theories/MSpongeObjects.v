(** * Model: the construction objects of SHA-3 and Keccak *)
From Coq Require Import NArith Arith List Bool.
From Verif Require Import SpecStream MPack MAcc MConstr MKeccak SpecSponge MObject.
Import ListNotations.

(** keccak.hpp:97-110, as [MKeccak.keccak_1600]. *)
Definition keccak_object (perm : list N -> list N) (injb : injector) (d : nat) : object :=
  sponge_object BOBB 64 (keccak_words d) (d / 8) (repeat 0%N 25) (keccak_process_block perm)
    (keccak_padding injb 64 (keccak_words d)) (keccak_process_last injb 64 (keccak_words d))
    (keccak_finalizer perm (keccak_words d) d).
(** sha3.hpp:96-109, as [MKeccak.sha3]. *)
Definition sha3_object (injb : injector) (d : nat) : object :=
  sponge_object BOBB 64 (keccak_words d) (d / 8) (repeat 0%N 25) (keccak_process_block permute)
    (sha3_padding injb 64 (keccak_words d)) (sha3_process_last injb 64 (keccak_words d))
    (keccak_finalizer permute (keccak_words d) d).

(** Each object with the suffix of the function it is for; keccak_1600 may use any implementation of the permutation that
    agrees with the portable one (C17-C20): detail/keccak/keccak_functions.hpp:60-78. *)
Inductive sponge_object_of (d : nat) (injb : injector) : object -> list bool -> Prop :=
| SO_sha3 : sponge_object_of d injb (sha3_object injb d) [false; true]
| SO_keccak perm : (forall st, block_ok 64 25 st -> perm st = permute st) -> sponge_object_of d injb (keccak_object perm injb d) [].
