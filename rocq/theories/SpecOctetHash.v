(** * What an accumulator must do to be a hash of octet strings

    However the octets are fed, extraction gives [H] of all of them (C01-C03). *)
From Coq Require Import NArith Arith List.
From Verif Require Import SpecStream SpecOctets MPack MAcc.
Import ListNotations.

(** Ranges the stream processor takes: elements of whole octets that divide the word. *)
Definition piece_ok (C : construction) (p : nat * list N) : Prop :=
  fst p mod 8 = 0 /\ 0 < fst p /\ c_word C mod fst p = 0 /\ Forall (fits (fst p)) (snd p).
Definition octet_hash (C : construction) (inj : injector) (H : list N -> list N) : Prop :=
  c_word C mod 8 = 0 /\ 0 < c_word C /\
  (c_endian C = BOBB \/ c_endian C = LOBB) /\ (c_host C = BOBB \/ c_host C = LOBB) /\
  forall junk ps, block_ok (c_word C) (c_words C) junk -> Forall (piece_ok C) ps ->
  (N.of_nat (8 * length (pieces_octets (c_host C) ps)) < 2 ^ 64)%N ->
  exists a, hash_pieces C inj (acc_init C junk) ps = Some a /\
    acc_result C a = Some (H (pieces_octets (c_host C) ps)).
(** Input blocks of [r] octets. *)
Definition input_block_octets (C : construction) (r : nat) : Prop := c_words C * c_word C = 8 * r.
(** Digests of [b] octets. *)
Definition digest_octets (H : list N -> list N) (b : nat) : Prop :=
  0 < b /\ (N.of_nat b < 2 ^ 60)%N /\ forall os, length (H os) = b /\ Forall (fits 8) (H os).
