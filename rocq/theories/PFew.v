(** * Property C78: few field elements map to one point

    Specification: SpecH2C.v.  Model: MH2C.v. *)
From Coq Require Import ZArith Arith List Bool.
From Verif Require Import SpecPoseidon SpecH2C MH2C.
From Verif Require LFewStmt.
Import ListNotations.

(** The simplified SWU maps: at most six field elements have one point. *)
Theorem C78_simplified_swu :
  (forall X Y us, NoDup us -> (forall u, In u us -> sswu A1 B1 Z1 parity u X Y) -> length us <= 6) /\
  (forall X Y us, NoDup us -> (forall u, In u us -> sswu A2 B2 Z2 parity2 u X Y) -> length us <= 6).
Proof. exact (conj LFewStmt.swu1_fibre LFewStmt.swu2_fibre). Qed.
Print Assumptions C78_simplified_swu.

(** G2: at most 18 field elements are mapped to any one point; [point] makes points of coordinates. *)
Theorem C78_map_to_curve_g2 : forall inversed is_square sqrt is_zero,
  inverse_of_field inversed -> decides_square is_square -> root_of_squares sqrt -> decides_zero is_zero ->
  forall (G : Type) (point : Fq2 -> Fq2 -> G) group_one, (forall x y x' y', point x y = point x' y' -> x = x' /\ y = y') ->
  forall R us, NoDup us -> (forall u, In u us -> map_to_curve_g2 inversed is_square sqrt is_zero point group_one u = R) ->
  length us <= 18.
Proof. exact LFewStmt.few2. Qed.
Print Assumptions C78_map_to_curve_g2.

(** G1: at most 66; if the point is the one() that the code returns for the kernel (C54), at most 126. *)
Theorem C78_map_to_curve_g1 : forall inversed is_square sqrt is_zero,
  inverse_of_field inversed -> decides_square is_square -> root_of_squares sqrt -> decides_zero is_zero ->
  forall (G : Type) (point : Fq -> Fq -> G) group_one, (forall x y x' y', point x y = point x' y' -> x = x' /\ y = y') ->
  forall R us, NoDup us -> (forall u, In u us -> map_to_curve_g1 inversed is_square sqrt is_zero point group_one u = R) ->
  (R <> group_one -> length us <= 66) /\ length us <= 126.
Proof.
  exact (fun i s r z HI HS HQ HZ G p g Hp R us ND H =>
    conj (LFewStmt.few1 i s r z HI HS HQ HZ G p g Hp R us ND H) (LFewStmt.few1_any i s r z HI HS HQ HZ G p g Hp R us ND H)).
Qed.
Print Assumptions C78_map_to_curve_g1.

(** Two field elements with one point.  (The contracts of the field's methods are met: C31_contracts.) *)
Example C78_hypotheses : exists u v X Y, u <> v /\ NoDup [u; v] /\
  sswu A1 B1 Z1 parity u X Y /\ sswu A1 B1 Z1 parity v X Y.
Proof.
  destruct LFewStmt.two_to_one as (N & Ha & Hb). exists (fq LFewStmt.u_a), (fq LFewStmt.u_b), (fq LFewStmt.p_x), (fq LFewStmt.p_y).
  split; [exact N|]. split; [constructor; [intros [K|[]]; exact (N (eq_sym K))|constructor; [intros []|constructor]]|]. exact (conj Ha Hb).
Qed.
