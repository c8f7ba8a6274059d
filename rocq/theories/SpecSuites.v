(** * Specification: the suites of RFC 9380 for BLS12-381 with SHA-256

    Sections 8.8.1 and 8.8.2: BLS12381G1_XMD:SHA-256_SSWU_RO_ and BLS12381G2_XMD:SHA-256_SSWU_RO_, with the domain
    separation tags of the RFC's test vectors (appendices J.9, J.10). *)
From Coq Require Import ZArith NArith Arith List String.
From Verif Require Import SpecSha SpecXmd SpecFgh SpecPoseidon SpecH2C.
Import ListNotations.

Definition G1_suite : string := "BLS12381G1_XMD:SHA-256_SSWU_RO_".
Definition G2_suite : string := "BLS12381G2_XMD:SHA-256_SSWU_RO_".
Definition test_DST (suite : string) : list N := ascii_octets ("QUUX-V01-CS02-with-" ++ suite).
(** Section 5.1: L = ceil((ceil(log2(p)) + k) / 8), with k = 128. *)
Definition suite_L : nat := ceil_div (Z.to_nat (Z.log2_up bls12_381_q) + 128) 8.
(** hash_to_field with SHA-256, whose outputs have 32 and whose input blocks have 64 octets. *)
Definition suite_hash_to_field (m count : nat) (msg DST : list N) : list (list N) :=
  hash_to_field SHA256 32 64 (Z.to_N bls12_381_q) m suite_L count msg DST.

(** Section 3: hash_to_curve.  [inv] is the field's inverse; of the group, [point] makes a point of its affine
    coordinates, [e] is the neutral element, [gadd] and [gmul] the sum and the product with an integer. *)
Section G1.
Context {G : Type} (inv : Fq -> Fq) (point : Fq -> Fq -> G) (e : G) (gadd : G -> G -> G) (gmul : G -> Z -> G).
(** Section 6.6.3: the point of the simplified SWU map, and its image; points of the kernel go to the neutral element. *)
Definition maps_to_G1 (u : Fq) (Q : G) : Prop :=
  exists X Y, sswu A1 B1 Z1 parity u X Y /\
  ((In X (map fq kernel1) /\ Q = e) \/ (~ In X (map fq kernel1) /\ Q = point (fst (isogeny1 inv X Y)) (snd (isogeny1 inv X Y)))).
Definition hash_to_G1 (msg DST : list N) (P : G) : Prop :=
  exists c0 c1 Q0 Q1,
    suite_hash_to_field 1 2 msg DST = [[c0]; [c1]] /\
    maps_to_G1 (fq (Z.of_N c0)) Q0 /\ maps_to_G1 (fq (Z.of_N c1)) Q1 /\ P = gmul (gadd Q0 Q1) (1 - bls12_381_x)%Z.
End G1.
Section G2.
Context {G : Type} (inv : Fq2 -> Fq2) (point : Fq2 -> Fq2 -> G) (gadd : G -> G -> G) (gmul : G -> Z -> G).
(** The kernel of the isogeny has no other point over the field (C32). *)
Definition maps_to_G2 (u : Fq2) (Q : G) : Prop :=
  exists X Y, sswu A2 B2 Z2 parity2 u X Y /\ Q = point (fst (isogeny2 inv X Y)) (snd (isogeny2 inv X Y)).
(** h_eff = 3 (x^2 - 1) h. *)
Definition G2_h_eff : Z := (3 * (bls12_381_x ^ 2 - 1) * g2_cofactor_9 / 9)%Z.
Definition hash_to_G2 (msg DST : list N) (P : G) : Prop :=
  exists a0 b0 a1 b1 Q0 Q1,
    suite_hash_to_field 2 2 msg DST = [[a0; b0]; [a1; b1]] /\
    maps_to_G2 (fq2 (Z.of_N a0) (Z.of_N b0)) Q0 /\ maps_to_G2 (fq2 (Z.of_N a1) (Z.of_N b1)) Q1 /\
    P = gmul (gadd Q0 Q1) G2_h_eff.
End G2.
