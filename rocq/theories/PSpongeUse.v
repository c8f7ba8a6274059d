(** * Property C88: SHA-3 and Keccak objects return a definite function in every program

    As C87: no rule of C84 is kept.  Specification: SpecSpongeUse.v ([sponge_returns]: what is returned, in terms of the
    absorbing, squeezing and padding of FIPS 202 in SpecKeccak.v).  Model: MSpongeObjects.v over MObject.v. *)
From Coq Require Import NArith Arith List Bool.
From Verif Require Import SpecStream SpecKeccak SpecStore SpecSponge MPack MAcc MKeccak SpecObject SpecAnyUse MObject MSpongeObjects SpecSpongeUse.
From Verif Require LSpongeUse LSpongeUseStmt.
Import ListNotations.

(** Every program: any objects, calls in any order, any blocks, any counts that are whole octets. *)
Theorem C88_every_program : forall d injb o suffix cs, sponge_size d -> sponge_object_of d injb o suffix ->
  injector_contract BOLB 64 (keccak_words d) injb -> Forall (octet_arguments 64 (keccak_words d)) cs ->
  object_calls o (fun s => s) nothing cs = sponge_returns d suffix nothing cs.
Proof. exact LSpongeUse.every_sponge_program. Qed.
Print Assumptions C88_every_program.

(** The objects are those of the library's hashes, and the functions the published ones. *)
Theorem C88_objects : forall d injb o suffix, sponge_object_of d injb o suffix -> suffixed_hash d injb (ob_class o) suffix.
Proof.
  intros d injb o suffix H; destruct H as [|perm HP].
  - exact (SX_sha3 d injb).
  - exact (SX_keccak d injb perm HP).
Qed.
Print Assumptions C88_objects.
Example C88_functions : forall d m, sponge_function d [false; true] m = SHA3_octets d m /\ sponge_function d [] m = Keccak_octets d m.
Proof.
  intros d m. split; [reflexivity|]. unfold sponge_function. rewrite app_nil_r. reflexivity.
Qed.

(** A forgotten reset: digest leaves only the digest in the state, so the second message is hashed with the first digest
    added to its first octets.  [d] is a multiple of 64 up to 512, such as 256, 384 and 512, and the second message is not
    shorter than a digest. *)
Theorem C88_forgotten_reset : forall d injb o suffix i m1 m2, sponge_size d -> sponge_object_of d injb o suffix ->
  injector_contract BOLB 64 (keccak_words d) injb ->
  Forall (fits 8) m1 -> Forall (fits 8) m2 -> (N.of_nat (8 * length m1) < 2 ^ 64)%N -> (N.of_nat (8 * length m2) < 2 ^ 64)%N ->
  d mod 64 = 0 -> 3 * d <= 1600 -> d <= 8 * length m2 ->
  object_calls o (fun s => s) nothing (New i :: sponge_hash_calls d i m1 ++ sponge_hash_calls d i m2) =
  Some [(i, sponge_function d suffix m1); (i, sponge_function d suffix (xor_front (sponge_function d suffix m1) m2))].
Proof. exact LSpongeUseStmt.sponge_reused. Qed.
Print Assumptions C88_forgotten_reset.

(** So, unlike for a hash of both messages, a second digest is found again for every other first message. *)
Theorem C88_forgotten_reset_collides : forall d injb o suffix i m1 m1' m2, sponge_size d -> sponge_object_of d injb o suffix ->
  injector_contract BOLB 64 (keccak_words d) injb ->
  Forall (fits 8) m1 -> Forall (fits 8) m1' -> Forall (fits 8) m2 ->
  (N.of_nat (8 * length m1) < 2 ^ 64)%N -> (N.of_nat (8 * length m1') < 2 ^ 64)%N -> (N.of_nat (8 * length m2) < 2 ^ 64)%N ->
  d mod 64 = 0 -> 3 * d <= 1600 -> d <= 8 * length m2 ->
  exists m2' a a' b, length m2' = length m2 /\
  object_calls o (fun s => s) nothing (New i :: sponge_hash_calls d i m1 ++ sponge_hash_calls d i m2) = Some [(i, a); (i, b)] /\
  object_calls o (fun s => s) nothing (New i :: sponge_hash_calls d i m1' ++ sponge_hash_calls d i m2') = Some [(i, a'); (i, b)].
Proof. exact LSpongeUseStmt.reused_collides. Qed.
Print Assumptions C88_forgotten_reset_collides.

(** Non-vacuity: SHA3-256 meets the hypotheses, with a program no rule of C84 allows and with messages of several blocks. *)
Definition careless : list ocall :=
  [New 0; Finish 0 (repeat 7%N 17) 0; Finish 0 (repeat 7%N 17) 0; Clone 0 1; Process 1 (repeat 1%N 17) 3; Finish 1 (repeat 0%N 17) 80].
Example C88_example : forall injb, sponge_size 256 /\ sponge_object_of 256 injb (sha3_object injb 256) [false; true] /\
  keccak_words 256 = 17 /\ Forall (octet_arguments 64 17) careless /\ 256 mod 64 = 0 /\ Nat.leb (3 * 256) 1600 = true.
Proof.
  intros injb. split; [split; [reflexivity|split; apply Nat.ltb_lt; reflexivity]|]. split; [constructor|]. split; [reflexivity|].
  split; [repeat constructor|]. split; reflexivity.
Qed.
Example C88_example_messages : exists m1 m2 : list N, Forall (fits 8) m1 /\ Forall (fits 8) m2 /\ Nat.leb 256 (8 * length m2) = true /\
  length (sponge_hash_calls 256 0 m1) = 1 /\ length (sponge_hash_calls 256 0 m2) = 2.
Proof.
  exists (repeat 9%N 100), (repeat 200%N 137). split; [repeat constructor|]. split; [repeat constructor|]. repeat split.
Qed.
