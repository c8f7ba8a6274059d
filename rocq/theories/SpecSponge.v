(** * Which library hash corresponds to which published sponge function *)
From Coq Require Import NArith Arith List.
From Verif Require Import SpecStream SpecKeccak MPack MAcc MKeccak.
Import ListNotations.

(** Digest sizes: all multiples of 32 below 800 bits, among them 224, 256, 384 and 512. *)
Definition sponge_size (d : nat) : Prop := d mod 32 = 0 /\ 0 < d < 800.

(** [C] is the library's hash and [H] the function on octet strings it must compute: sha3<d> and
    SHA3-d, keccak_1600<d> and Keccak with capacity 2d.  keccak_1600 may use any implementation of
    the permutation that agrees with the portable one (properties C17-C20). *)
Inductive sponge_hash (d : nat) (injb : injector) : construction -> (list N -> list N) -> Prop :=
| SH_sha3 : sponge_hash d injb (sha3 injb d) (SHA3_octets d)
| SH_keccak perm : (forall st, block_ok 64 25 st -> perm st = permute st) ->
    sponge_hash d injb (keccak_1600 perm injb d) (Keccak_octets d).

(** The suffix that follows the message, FIPS 202, section 6.1: 01 for SHA-3, none for Keccak. *)
Inductive suffixed_hash (d : nat) (injb : injector) : construction -> list bool -> Prop :=
| SX_sha3 : suffixed_hash d injb (sha3 injb d) [false; true]
| SX_keccak perm : (forall st, block_ok 64 25 st -> perm st = permute st) ->
    suffixed_hash d injb (keccak_1600 perm injb d) [].
(** The blocks the sponge absorbs for the octets [os] and a suffix, the state after absorbing blocks, the part of
    a state that no block is added to, and the [d] bits squeezed from a state. *)
Definition padded_blocks (r : nat) (os : list N) (suffix : list bool) : list (list bool) :=
  let M := octets_bits_lsb os ++ suffix in chunks r (M ++ pad10star1 r (length M)).
Definition state_after (r : nat) (blocks : list (list bool)) : list bool :=
  fold_left (absorb_block r) blocks (repeat false 1600).
Definition capacity_part (r : nat) (S : list bool) : list bool := skipn r S.
Definition squeezed (r d : nat) (S : list bool) : list bool := firstn d (sponge_squeeze r (1 + d / r) S).
