(** * Properties C31, C32, C54-C56: hashing to BLS12-381

    Specification: SpecH2C.v (RFC 9380).  Model: MH2C.v, MH2CTables.v.  [inversed], [is_square], [sqrt], [is_zero] are
    the field's methods, any functions that meet the contracts of SpecH2C.v; [point] is the group's constructor from
    affine coordinates and [group_one] what group_value_type::one() returns, the generator. *)
From Coq Require Import ZArith NArith Arith List Bool.
From Verif Require Import SpecStream MPack MAcc SpecOctets SpecOctetHash SpecXmd MXmd SpecXmdHist SpecPoseidon SpecH2C MH2C.
From Verif Require LSwu LH2C LH2C2 LH2CCert LH2CStmt LVeluStmt.
Import ListNotations.

(** C31: over any field, for any curve and Z with the documented preconditions (and no point with y = 0). *)
Theorem C31_simplified_swu :
  forall (F : ring), is_ring F ->
  forall (inversed : F -> F) (is_square : F -> bool) (sqrt : F -> F) (is_zero sgn : F -> bool),
  inverse_of_field inversed -> decides_square is_square -> root_of_squares sqrt -> decides_zero is_zero ->
  (forall y, y <> zero -> sgn (opp y) = negb (sgn y)) ->
  (forall a b : F, ~ square a -> ~ square b -> square (mul a b)) -> @one F <> zero ->
  forall A B Z, A <> zero -> ~ square Z -> (forall x, rhs A B x <> zero) ->
  (forall x, mul (mul Z A) x = B -> square (rhs A B x)) ->
  forall u, let '(x, y) := simple_swu inversed is_square sqrt is_zero sgn A B Z u in sswu A B Z sgn u x y.
Proof. exact (fun F HR i s r z g a b c d e f h A B Z j k l m u => LSwu.swu_ok HR i s r z g a b c d e f h A B Z j k l m u). Qed.
Print Assumptions C31_simplified_swu.
(** The curves of the suites meet the preconditions, so only the field's methods are left as hypotheses. *)
Theorem C31_g1 : forall inversed is_square sqrt is_zero,
  inverse_of_field inversed -> decides_square is_square -> root_of_squares sqrt -> decides_zero is_zero ->
  forall u : Fq, let '(x, y) := simple_swu inversed is_square sqrt is_zero sgn0 g1_Ai g1_Bi g1_Z u in
  sswu A1 B1 Z1 parity u x y.
Proof. exact LH2C.swu_g1. Qed.
Print Assumptions C31_g1.
Theorem C31_g2 : forall inversed is_square sqrt is_zero,
  inverse_of_field inversed -> decides_square is_square -> root_of_squares sqrt -> decides_zero is_zero ->
  forall u : Fq2, let '(x, y) := simple_swu inversed is_square sqrt is_zero sgn0_2 g2_Ai g2_Bi g2_Z u in
  sswu A2 B2 Z2 parity2 u x y.
Proof. exact LH2C2.swu_g2. Qed.
Print Assumptions C31_g2.
(** The specification leaves no choice. *)
Theorem C31_unique :
  (forall u x y x' y', sswu A1 B1 Z1 parity u x y -> sswu A1 B1 Z1 parity u x' y' -> x = x' /\ y = y') /\
  (forall u x y x' y', sswu A2 B2 Z2 parity2 u x y -> sswu A2 B2 Z2 parity2 u x' y' -> x = x' /\ y = y').
Proof. exact (conj LH2CStmt.unique1 LH2CStmt.unique2). Qed.
Print Assumptions C31_unique.
(** The hypotheses hold: the preconditions for both curves, the contracts for both fields. *)
Example C31_preconditions :
  ((forall a b : Fq, ~ square a -> ~ square b -> square (mul a b)) /\ A1 <> zero /\ ~ square Z1 /\
   (forall x, rhs A1 B1 x <> zero) /\ (forall x, mul (mul Z1 A1) x = B1 -> square (rhs A1 B1 x)) /\
   (forall y, y <> zero -> parity (opp y) = negb (parity y))) /\
  ((forall a b : Fq2, ~ square a -> ~ square b -> square (mul a b)) /\ A2 <> zero /\ ~ square Z2 /\
   (forall x, rhs A2 B2 x <> zero) /\ (forall x, mul (mul Z2 A2) x = B2 -> square (rhs A2 B2 x)) /\
   (forall y, y <> zero -> parity2 (opp y) = negb (parity2 y))).
Proof. exact (conj LH2CStmt.preconditions1 LH2CStmt.preconditions2). Qed.
Example C31_contracts :
  (exists inversed is_square sqrt is_zero,
    @inverse_of_field Fq inversed /\ @decides_square Fq is_square /\ @root_of_squares Fq sqrt /\ @decides_zero Fq is_zero) /\
  (exists inversed is_square sqrt is_zero,
    @inverse_of_field Fq2 inversed /\ @decides_square Fq2 is_square /\ @root_of_squares Fq2 sqrt /\ @decides_zero Fq2 is_zero).
Proof. exact (conj LH2CStmt.contracts1 LH2CStmt.contracts2). Qed.

(** C32: the isogeny of G1, for every point of the auxiliary curve outside the kernel: it is that of the RFC, given by
    Vélu's formulas, and the result is on the curve. *)
Theorem C32_isogeny_g1 : forall inversed is_zero, inverse_of_field inversed -> decides_zero is_zero ->
  forall (G : Type) (point : Fq -> Fq -> G) group_one X Y, on_curve A1 B1 X Y -> ~ In X (map fq kernel1) ->
  let '(x, y) := isogeny1 inversed X Y in
  iso_map_g1 inversed is_zero point group_one X Y = point x y /\ E1 x y.
Proof. exact LVeluStmt.isogeny_g1. Qed.
Print Assumptions C32_isogeny_g1.
(** The kernel: five x coordinates, each that of the double of the one before, so a cyclic group of order 11. *)
Theorem C32_kernel_g1 :
  length kernel1 = 5 /\
  forall i, i < 5 -> doubles A1 B1 (fq (nth i kernel1 0%Z)) (fq (nth ((i + 1) mod 5) kernel1 0%Z)).
Proof. exact (conj eq_refl LH2CStmt.kernel_doubles). Qed.
Print Assumptions C32_kernel_g1.
(** G2: no point over the field is in the kernel. *)
Theorem C32_isogeny_g2 : forall inversed is_zero, inverse_of_field inversed -> decides_zero is_zero ->
  forall (G : Type) (point : Fq2 -> Fq2 -> G) group_one X Y, on_curve A2 B2 X Y ->
  let '(x, y) := isogeny2 inversed X Y in
  iso_map_g2 inversed is_zero point group_one X Y = point x y /\ E2 x y.
Proof. exact LVeluStmt.isogeny_g2. Qed.
Print Assumptions C32_isogeny_g2.
(** Points of the auxiliary curves, the first outside the kernel. *)
Example C32_hypotheses :
  (on_curve A1 B1 (fq LH2CCert.c_ex1) (fq LH2CCert.c_ey1) /\ ~ In (fq LH2CCert.c_ex1) (map fq kernel1)) /\
  on_curve A2 B2 (coef2 LH2CCert.c_ex2) (coef2 LH2CCert.c_ey2).
Proof. exact (conj LH2CStmt.point1 LH2CStmt.point2). Qed.

(** C54: G2's map sends every field element to the image of its point under the isogeny, a point of BLS12-381. *)
Theorem C54_map_to_curve_g2 : forall inversed is_square sqrt is_zero,
  inverse_of_field inversed -> decides_square is_square -> root_of_squares sqrt -> decides_zero is_zero ->
  forall (G : Type) (point : Fq2 -> Fq2 -> G) group_one (u : Fq2),
  exists X Y, sswu A2 B2 Z2 parity2 u X Y /\
  let '(x, y) := isogeny2 inversed X Y in
  map_to_curve_g2 inversed is_square sqrt is_zero point group_one u = point x y /\ E2 x y.
Proof. exact LVeluStmt.map_g2. Qed.
Print Assumptions C54_map_to_curve_g2.
(** G1's map does so unless the intermediate point is in the kernel.  Missing: in that case the identity is due;
    refuted below. *)
Theorem C54_map_to_curve_g1_partial : forall inversed is_square sqrt is_zero,
  inverse_of_field inversed -> decides_square is_square -> root_of_squares sqrt -> decides_zero is_zero ->
  forall (G : Type) (point : Fq -> Fq -> G) group_one (u X Y : Fq),
  sswu A1 B1 Z1 parity u X Y -> ~ In X (map fq kernel1) ->
  let '(x, y) := isogeny1 inversed X Y in
  map_to_curve_g1 inversed is_square sqrt is_zero point group_one u = point x y /\ E1 x y.
Proof. exact LVeluStmt.map_g1. Qed.
Print Assumptions C54_map_to_curve_g1_partial.
(** There is an input whose intermediate point is in the kernel, and the result is one(), not the identity. *)
Theorem C54_identity_g1_refuted : exists u X Y : Fq, sswu A1 B1 Z1 parity u X Y /\ In X (map fq kernel1) /\
  forall inversed is_square sqrt is_zero,
  inverse_of_field inversed -> decides_square is_square -> root_of_squares sqrt -> decides_zero is_zero ->
  forall (G : Type) (point : Fq -> Fq -> G) (group_one : G),
  map_to_curve_g1 inversed is_square sqrt is_zero point group_one u = group_one.
Proof. exact LH2CStmt.map_kernel. Qed.
Print Assumptions C54_identity_g1_refuted.
(** An input whose intermediate point is not in the kernel: zero. *)
Example C54_hypotheses : exists X Y : Fq, sswu A1 B1 Z1 parity (fq 0) X Y /\ ~ In X (map fq kernel1).
Proof. exact LH2CStmt.zero_input. Qed.

(** C55: the effective cofactors are those of the RFC. *)
Theorem C55_effective_cofactors :
  (g1_h_eff = 1 - bls12_381_x /\ 9 * g2_h_eff = 3 * (bls12_381_x ^ 2 - 1) * g2_cofactor_9)%Z.
Proof. exact (conj LH2CStmt.cofactor1 LH2CStmt.cofactor2). Qed.
Print Assumptions C55_effective_cofactors.
(** The result has an order dividing r: for G1 when (1 - x) r annihilates the curve's group, for G2 when the group's
    order does. *)
Theorem C55_prime_order_g1 : forall (F G : Type) (e : G) gadd gmul, multiples e gmul ->
  forall (map_to_curve : F -> G) u0 u1, (forall R, gmul R ((1 - bls12_381_x) * bls12_381_r)%Z = e) ->
  gmul (ep_map gadd gmul map_to_curve g1_h_eff u0 u1) bls12_381_r = e.
Proof. exact (fun F G e gadd gmul H m u0 u1 => LH2CStmt.order1 e gadd gmul H m u0 u1). Qed.
Print Assumptions C55_prime_order_g1.
Theorem C55_prime_order_g2 : forall (F G : Type) (e : G) gadd gmul, multiples e gmul ->
  forall (map_to_curve : F -> G) n u0 u1, (9 * n = g2_cofactor_9 * bls12_381_r)%Z -> (forall R, gmul R n = e) ->
  gmul (ep_map gadd gmul map_to_curve g2_h_eff u0 u1) bls12_381_r = e.
Proof. exact (fun F G e gadd gmul H m n u0 u1 => LH2CStmt.order2 e gadd gmul H m n u0 u1). Qed.
Print Assumptions C55_prime_order_g2.
(** The integers modulo the group's order are such a group. *)
Example C55_hypotheses : let n := (g2_cofactor_9 * bls12_381_r / 9)%Z in
  (9 * n = g2_cofactor_9 * bls12_381_r)%Z /\
  multiples 0%Z (fun R a => (R * a) mod n)%Z /\ forall R, ((R * n) mod n = 0)%Z.
Proof.
  cbv zeta. split; [vm_compute; reflexivity|]. set (n := (g2_cofactor_9 * bls12_381_r / 9)%Z).
  assert (N : n <> 0%Z) by (vm_compute; discriminate). clearbody n. split; [split|].
  - intros R a b. rewrite Z.mul_mod_idemp_l by exact N. f_equal. symmetry. apply Z.mul_assoc.
  - intros a. apply Z.mod_0_l. exact N.
  - intros R. apply Z.mod_mul. exact N.
Qed.

(** C56: the whole hash, the message fed in any pieces: the two elements of hash_to_field are mapped to the curve,
    added, and multiplied by the effective cofactor. *)
Theorem C56_hash_to_curve :
  forall (F G : Type) (elem : list N -> F) gadd gmul (map_to_curve : F -> G) h_eff,
  forall C inj H r b k p m L dst junk,
  octet_hash C inj H -> digest_octets H b -> input_block_octets C r ->
  Forall (fits 8) dst -> 16 <= length dst <= 255 -> block_ok (c_word C) (c_words C) junk ->
  accepted b k (2 * m * L) = true ->
  forall pieces junks buf, (2 * m * L) mod b = 0 -> 0 < 2 * m * L -> Forall (piece_ok C) pieces ->
  (forall i, block_ok (c_word C) (c_words C) (junks i)) -> length buf = 2 * m * L ->
  (N.of_nat (8 * length (msg_prime r (pieces_octets (c_host C) pieces) dst (2 * m * L))) < 2 ^ 64)%N ->
  exists a u0 u1, xmd_init C inj junk = Some a /\
    hash_to_field H b r p m L 2 (pieces_octets (c_host C) pieces) dst = [u0; u1] /\
    h2c_run C inj b elem (ep_map gadd gmul map_to_curve h_eff) p m L 2 dst a (updates pieces ++ [XExtract junks buf]) =
    Some [gmul (gadd (map_to_curve (elem u0)) (map_to_curve (elem u1))) h_eff].
Proof. exact (fun F G => @LH2CStmt.whole F G). Qed.
Print Assumptions C56_hash_to_curve.
(** The BLS12-381 suites: SHA-256 (32 octets), k = 128, L = 64, m = 1 and 2. *)
Example C56_hypotheses :
  accepted 32 128 (2 * 1 * 64) = true /\ (2 * 1 * 64) mod 32 = 0 /\ accepted 32 128 (2 * 2 * 64) = true /\ (2 * 2 * 64) mod 32 = 0.
Proof. repeat split. Qed.
