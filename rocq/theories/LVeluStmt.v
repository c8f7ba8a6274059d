(** Statements of PH2C.v about the isogenies. *)
From Coq Require Import ZArith Znumtheory Arith List Bool Lia Ring.
From Verif Require Import SpecPoseidon SpecH2C MH2CTables MH2C LPoseidonBij LFermat LZp LPrimes381 LH2CField LSwu LPoly LIso LVelu LH2CCert LH2C LH2C2 LH2CStmt.
Import ListNotations.
Local Open Scope Z_scope.
Opaque bls12_381_q.

(** ** G1 *)
Definition a1 : Z := 0x144698a3b8e9433d693a02c96d4982b0ea985383ee66a8d8e8981aefd881ac98936f8da0e0f97f5cf428082d584c1d.
Definition b1 : Z := 0x12e2908d11688030018b12e8753eee3b2016c1f0f24f4070a0b9c14fcef35ef55a23215a316ceaa5d1cc48e98e172be0.
Lemma g1_V : velu_check (R := Zring) redq is0 a1 b1 g1_k_x_num g1_k_x_den g1_k_y_num g1_k_y_den kernel1 (11 ^ 2) (11 ^ 3) = true.
Proof. vm_compute. reflexivity. Qed.
Lemma n121 : fq (11 ^ 2) <> zero. Proof. apply fq_zero_neq. vm_compute. reflexivity. Qed.
Lemma n1331 : fq (11 ^ 3) <> zero. Proof. apply fq_zero_neq. vm_compute. reflexivity. Qed.
Section G1.
Context (inversed : Fq -> Fq) (is_zero : Fq -> bool) (HI : inverse_of_field inversed) (HZ : decides_zero is_zero) {G : Type} (point : Fq -> Fq -> G) (group_one : G).
Lemma velu_g1 X Y : ~ In X (map fq kernel1) ->
  iso_map_g1 inversed is_zero point group_one X Y = point (fst (isogeny1 inversed X Y)) (snd (isogeny1 inversed X Y)).
Proof.
  intros N.
  exact (iso_velu (R := Zring) Fq_ring fq redq is0 eq_refl eq_refl fq_add fq_mul fq_sub fq_red fq_is0 inversed is_zero HI HZ one1 a1 b1
    15 g1_k_x_num g1_k_x_den g1_k_y_num g1_k_y_den kernel1 (11 ^ 2) (11 ^ 3) g1_Ld g1_V n121 n1331 point group_one X Y N).
Qed.
End G1.
Section G1'.
Context (inversed : Fq -> Fq) (is_zero : Fq -> bool) (HI : inverse_of_field inversed) (HZ : decides_zero is_zero).
Lemma velu_g1_on X Y : on_curve A1 B1 X Y -> ~ In X (map fq kernel1) -> E1 (fst (isogeny1 inversed X Y)) (snd (isogeny1 inversed X Y)).
Proof.
  intros C N. destruct (iso_g1_off inversed is_zero HI HZ (@pair Fq Fq) (zero, zero) X Y C N) as (x & y & E & H).
  rewrite (velu_g1 inversed is_zero HI HZ (@pair Fq Fq) (zero, zero) X Y N) in E.
  assert (Ex : fst (isogeny1 inversed X Y) = x) by exact (f_equal fst E). assert (Ey : snd (isogeny1 inversed X Y) = y) by exact (f_equal snd E).
  rewrite Ex, Ey. exact H.
Qed.
End G1'.
Theorem isogeny_g1 : forall inversed is_zero, inverse_of_field inversed -> decides_zero is_zero ->
  forall (G : Type) (point : Fq -> Fq -> G) group_one X Y, on_curve A1 B1 X Y -> ~ In X (map fq kernel1) ->
  let '(x, y) := isogeny1 inversed X Y in iso_map_g1 inversed is_zero point group_one X Y = point x y /\ E1 x y.
Proof.
  intros i z HI HZ G point g X Y C N. pose proof (velu_g1 i z HI HZ point g X Y N) as V. pose proof (velu_g1_on i z HI HZ X Y C N) as O.
  destruct (isogeny1 i X Y) as [x y]. exact (conj V O).
Qed.
Theorem map_g1 : forall inversed is_square sqrt is_zero,
  inverse_of_field inversed -> decides_square is_square -> root_of_squares sqrt -> decides_zero is_zero ->
  forall (G : Type) (point : Fq -> Fq -> G) group_one (u X Y : Fq),
  sswu A1 B1 Z1 parity u X Y -> ~ In X (map fq kernel1) ->
  let '(x, y) := isogeny1 inversed X Y in map_to_curve_g1 inversed is_square sqrt is_zero point group_one u = point x y /\ E1 x y.
Proof.
  intros i s r z HI HS HQ HZ G point g u X Y H N. rewrite (map1 i s r z HI HS HQ HZ point g u X Y H). apply isogeny_g1; try assumption.
  destruct H as (x1 & _ & _ & _ & _ & C & _). exact C.
Qed.

(** ** G2 *)
Definition k2 : list Zi := [(-6, 6)].
Lemma g2_V : velu_check red2 is02 (0, 240) (1012, 1012) g2_k_x_num g2_k_x_den g2_k_y_num g2_k_y_den k2 ((-3) ^ 2, 0) ((-3) ^ 3, 0) = true.
Proof. vm_compute. reflexivity. Qed.
Lemma n9 : coefi ((-3) ^ 2, 0) <> zero. Proof. apply c2_neq. vm_compute. reflexivity. Qed.
Lemma n27 : coefi ((-3) ^ 3, 0) <> zero. Proof. apply c2_neq. vm_compute. reflexivity. Qed.
Lemma off2 X Y : on_curve A2 B2 X Y -> ~ In X [kernel2].
Proof. intros C [<-|[]]. apply kernel2_nonsquare. exists Y. exact C. Qed.
Lemma velu_g2 (inversed : Fq2 -> Fq2) (is_zero : Fq2 -> bool) : inverse_of_field inversed -> decides_zero is_zero -> forall (G : Type) (point : Fq2 -> Fq2 -> G) group_one X Y, ~ In X [kernel2] ->
  iso_map_g2 inversed is_zero point group_one X Y = point (fst (isogeny2 inversed X Y)) (snd (isogeny2 inversed X Y)).
Proof.
  intros HI HZ G point group_one X Y N.
  exact (iso_velu Fq2_ring coefi red2 is02 c2_0 c2_1 c2_add c2_mul c2_sub c2_red c2_is0 inversed is_zero HI HZ one2 (0, 240) (1012, 1012)
    3 g2_k_x_num g2_k_x_den g2_k_y_num g2_k_y_den k2 ((-3) ^ 2, 0) ((-3) ^ 3, 0) g2_Ld g2_V n9 n27 point group_one X Y N).
Qed.
Lemma velu_g2_on (inversed : Fq2 -> Fq2) (is_zero : Fq2 -> bool) : inverse_of_field inversed -> decides_zero is_zero -> forall X Y, on_curve A2 B2 X Y -> E2 (fst (isogeny2 inversed X Y)) (snd (isogeny2 inversed X Y)).
Proof.
  intros HI HZ X Y C. destruct (iso_g2 inversed is_zero HI HZ (@pair Fq2 Fq2) (zero, zero) X Y C) as (x & y & E & H).
  rewrite (velu_g2 inversed is_zero HI HZ _ (@pair Fq2 Fq2) (zero, zero) X Y (off2 X Y C)) in E.
  assert (Ex : fst (isogeny2 inversed X Y) = x) by exact (f_equal fst E). assert (Ey : snd (isogeny2 inversed X Y) = y) by exact (f_equal snd E).
  rewrite Ex, Ey. exact H.
Qed.
Theorem isogeny_g2 : forall inversed is_zero, inverse_of_field inversed -> decides_zero is_zero ->
  forall (G : Type) (point : Fq2 -> Fq2 -> G) group_one X Y, on_curve A2 B2 X Y ->
  let '(x, y) := isogeny2 inversed X Y in iso_map_g2 inversed is_zero point group_one X Y = point x y /\ E2 x y.
Proof.
  intros i z HI HZ G point g X Y C. pose proof (velu_g2 i z HI HZ G point g X Y (off2 X Y C)) as V. pose proof (velu_g2_on i z HI HZ X Y C) as O.
  destruct (isogeny2 i X Y) as [x y]. exact (conj V O).
Qed.
Theorem map_g2 : forall inversed is_square sqrt is_zero,
  inverse_of_field inversed -> decides_square is_square -> root_of_squares sqrt -> decides_zero is_zero ->
  forall (G : Type) (point : Fq2 -> Fq2 -> G) group_one (u : Fq2),
  exists X Y, sswu A2 B2 Z2 parity2 u X Y /\
  let '(x, y) := isogeny2 inversed X Y in map_to_curve_g2 inversed is_square sqrt is_zero point group_one u = point x y /\ E2 x y.
Proof.
  intros i s r z HI HS HQ HZ G point g u. pose proof (swu_g2 i s r z HI HS HQ HZ u) as K. unfold map_to_curve_g2, swu_zeroAB.
  destruct (simple_swu i s r z sgn0_2 g2_Ai g2_Bi g2_Z u) as [X Y]. exists X, Y. split; [exact K|]. destruct K as (x1 & _ & _ & _ & _ & C & _).
  exact (isogeny_g2 i z HI HZ G point g X Y C).
Qed.
