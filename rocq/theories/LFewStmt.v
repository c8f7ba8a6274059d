(** Statements of PFew.v. *)
From Coq Require Import ZArith Znumtheory Arith List Bool Lia Ring.
From Verif Require Import SpecPoseidon SpecH2C MH2CTables MH2C LPoseidonBij LFermat LZp LPrimes381 LH2CField LSwu LPoly LIso LVelu LH2CCert LH2C LH2C2 LH2CStmt LVeluStmt LFew.
Import ListNotations.
Local Open Scope Z_scope.
Opaque bls12_381_q.
Add Ring Fqring : rt1.
Add Ring Fq2ring : rt2.

Lemma B1_nonzero : B1 <> zero. Proof. apply fq_zero_neq. vm_compute. reflexivity. Qed.
Lemma B2_nonzero : B2 <> zero. Proof. change B2 with (coefi (1012, 1012)). apply c2_neq. vm_compute. reflexivity. Qed.
Lemma y1_nonzero x y : E1 x y -> y <> zero.
Proof.
  unfold E1, on_curve, rhs. intros E ->. apply (no_cube x). unfold cube. change (fq (-4)) with (fq (- (4))). rewrite fq_opp.
  change (fq 0) with (@zero Fq) in E. revert E. generalize (fq 4). intros f E.
  transitivity (sub (add (add (mul x (mul x x)) (mul zero x)) f) f); [ring|]. rewrite <- E. ring.
Qed.
Lemma y2_nonzero x y : E2 x y -> y <> zero.
Proof.
  unfold E2, on_curve, rhs. intros E ->. apply (no_cube2 x). unfold cube.
  change (fq2 0 0) with (@zero Fq2) in E. revert E. generalize (fq2 4 4). intros f E.
  transitivity (sub (add (add (mul x (mul x x)) (mul zero x)) f) f); [ring|]. rewrite <- E. ring.
Qed.
Lemma inv_zero_1 (i : Fq -> Fq) z : inverse_of_field i -> z <> zero -> i z <> zero.
Proof. intros [_ H] N E. apply one1. rewrite <- (H z N), E. ring. Qed.
Lemma inv_zero_2 (i : Fq2 -> Fq2) z : inverse_of_field i -> z <> zero -> i z <> zero.
Proof. intros [_ H] N E. apply one2. rewrite <- (H z N), E. ring. Qed.

Theorem swu1_fibre X Y us : NoDup us -> (forall u, In u us -> sswu A1 B1 Z1 parity u X Y) -> (length us <= 6)%nat.
Proof. exact (swu_fibre Fq_ring (inv_ q) (inv_ok q Pq P4) one1 Fq_dec A1 B1 Z1 parity B1_nonzero Z1_nonzero parity_opp X Y us). Qed.
Theorem swu2_fibre X Y us : NoDup us -> (forall u, In u us -> sswu A2 B2 Z2 parity2 u X Y) -> (length us <= 6)%nat.
Proof. exact (swu_fibre Fq2_ring (inv2 q) (inv2_ok q Pq P4) one2 Fq2_dec A2 B2 Z2 parity2 B2_nonzero Z2_nonzero parity2_opp X Y us). Qed.

Section G1.
Context (inversed : Fq -> Fq) (is_square : Fq -> bool) (sqrt : Fq -> Fq) (is_zero : Fq -> bool)
  (HI : inverse_of_field inversed) (HS : decides_square is_square) (HQ : root_of_squares sqrt) (HZ : decides_zero is_zero)
  (G : Type) (point : Fq -> Fq -> G) (group_one : G) (Hp : forall x y x' y', point x y = point x' y' -> x = x' /\ y = y').
Notation m u := (map_to_curve_g1 inversed is_square sqrt is_zero point group_one u).
Definition XY1 (u : Fq) : Fq * Fq := simple_swu inversed is_square sqrt is_zero sgn0 g1_Ai g1_Bi g1_Z u.
Lemma XY1_ok u : sswu A1 B1 Z1 parity u (fst (XY1 u)) (snd (XY1 u)).
Proof. pose proof (swu_g1 inversed is_square sqrt is_zero HI HS HQ HZ u) as K. unfold XY1. destruct (simple_swu _ _ _ _ _ _ _ _ u) as [x y]. exact K. Qed.
Lemma m1_off u : ~ In (fst (XY1 u)) (map fq kernel1) ->
  m u = point (fst (isogeny1 inversed (fst (XY1 u)) (snd (XY1 u)))) (snd (isogeny1 inversed (fst (XY1 u)) (snd (XY1 u)))) /\
  E1 (fst (isogeny1 inversed (fst (XY1 u)) (snd (XY1 u)))) (snd (isogeny1 inversed (fst (XY1 u)) (snd (XY1 u)))).
Proof.
  intros N. pose proof (map_g1 inversed is_square sqrt is_zero HI HS HQ HZ G point group_one u _ _ (XY1_ok u) N) as K.
  destruct (isogeny1 inversed (fst (XY1 u)) (snd (XY1 u))) as [x y]. exact K.
Qed.
Lemma off1 R us : NoDup us -> (forall u, In u us -> ~ In (fst (XY1 u)) (map fq kernel1) /\ m u = R) -> (length us <= 66)%nat.
Proof.
  intros ND H. destruct us as [|u0 us]; [cbn [length]; lia|]. destruct (H u0 (or_introl eq_refl)) as [N0 R0].
  destruct (m1_off u0 N0) as [M0 C0]. set (x := fst (isogeny1 inversed (fst (XY1 u0)) (snd (XY1 u0)))) in *. set (y := snd (isogeny1 inversed (fst (XY1 u0)) (snd (XY1 u0)))) in *.
  refine (few_off Fq_ring inversed HI one1 Fq_dec A1 B1 Z1 parity B1_nonzero Z1_nonzero parity_opp XY1 XY1_ok (map fq kernel1)
    (inversed (fq (11 ^ 2))) (inversed (fq (11 ^ 3))) x y (u0 :: us) (inv_zero_1 _ _ HI n121) (y1_nonzero x y C0) ND _).
  intros u Hu. destruct (H u Hu) as [N Ru]. split; [exact N|]. destruct (m1_off u N) as [M _]. rewrite Ru, <- R0, M0 in M.
  destruct (Hp _ _ _ _ M) as [Ex Ey]. split; [symmetry; exact Ex|symmetry; exact Ey].
Qed.
Theorem few1 R us : NoDup us -> (forall u, In u us -> m u = R) -> R <> group_one -> (length us <= 66)%nat.
Proof.
  intros ND H NR. apply (off1 R us ND). intros u Hu. split; [|now apply H]. intros K. apply NR. rewrite <- (H u Hu).
  exact (map_in inversed is_square sqrt is_zero HI HS HQ HZ point group_one u _ _ (XY1_ok u) K).
Qed.
Theorem few1_any R us : NoDup us -> (forall u, In u us -> m u = R) -> (length us <= 126)%nat.
Proof.
  intros ND H. change 126%nat with (60 + 66)%nat.
  apply (split_by (fun u => if in_dec Fq_dec (fst (XY1 u)) (map fq kernel1) then true else false)); [| |exact ND].
  - intros l Nl Hl. refine (few_in Fq_ring inversed HI one1 Fq_dec A1 B1 Z1 parity B1_nonzero Z1_nonzero parity_opp XY1 XY1_ok g1_no_root (map fq kernel1) l Nl _).
    intros u Hu. destruct (Hl u Hu) as [_ E]. destruct (in_dec Fq_dec (fst (XY1 u)) (map fq kernel1)); [assumption|discriminate].
  - intros l Nl Hl. apply (off1 R l Nl). intros u Hu. destruct (Hl u Hu) as [Iu E].
    destruct (in_dec Fq_dec (fst (XY1 u)) (map fq kernel1)); [discriminate|]. split; [assumption|now apply H].
Qed.
End G1.

Section G2.
Context (inversed : Fq2 -> Fq2) (is_square : Fq2 -> bool) (sqrt : Fq2 -> Fq2) (is_zero : Fq2 -> bool)
  (HI : inverse_of_field inversed) (HS : decides_square is_square) (HQ : root_of_squares sqrt) (HZ : decides_zero is_zero)
  (G : Type) (point : Fq2 -> Fq2 -> G) (group_one : G) (Hp : forall x y x' y', point x y = point x' y' -> x = x' /\ y = y').
Notation m u := (map_to_curve_g2 inversed is_square sqrt is_zero point group_one u).
Definition XY2 (u : Fq2) : Fq2 * Fq2 := simple_swu inversed is_square sqrt is_zero sgn0_2 g2_Ai g2_Bi g2_Z u.
Lemma XY2_ok u : sswu A2 B2 Z2 parity2 u (fst (XY2 u)) (snd (XY2 u)).
Proof. pose proof (swu_g2 inversed is_square sqrt is_zero HI HS HQ HZ u) as K. unfold XY2. destruct (simple_swu _ _ _ _ _ _ _ _ u) as [x y]. exact K. Qed.
Lemma XY2_on u : on_curve A2 B2 (fst (XY2 u)) (snd (XY2 u)).
Proof. destruct (XY2_ok u) as (x1 & _ & _ & _ & _ & C & _). exact C. Qed.
Lemma m2_is u : m u = point (fst (isogeny2 inversed (fst (XY2 u)) (snd (XY2 u)))) (snd (isogeny2 inversed (fst (XY2 u)) (snd (XY2 u)))) /\
  E2 (fst (isogeny2 inversed (fst (XY2 u)) (snd (XY2 u)))) (snd (isogeny2 inversed (fst (XY2 u)) (snd (XY2 u)))).
Proof.
  destruct (map_g2 inversed is_square sqrt is_zero HI HS HQ HZ G point group_one u) as (X & Y & S & K).
  destruct (unique2 _ _ _ _ _ S (XY2_ok u)) as [-> ->].
  destruct (isogeny2 inversed (fst (XY2 u)) (snd (XY2 u))) as [x y]. exact K.
Qed.
Theorem few2 R us : NoDup us -> (forall u, In u us -> m u = R) -> (length us <= 18)%nat.
Proof.
  intros ND H. destruct us as [|u0 us]; [cbn [length]; lia|]. pose proof (H u0 (or_introl eq_refl)) as R0.
  destruct (m2_is u0) as [M0 C0]. set (x := fst (isogeny2 inversed (fst (XY2 u0)) (snd (XY2 u0)))) in *. set (y := snd (isogeny2 inversed (fst (XY2 u0)) (snd (XY2 u0)))) in *.
  refine (few_off Fq2_ring inversed HI one2 Fq2_dec A2 B2 Z2 parity2 B2_nonzero Z2_nonzero parity2_opp XY2 XY2_ok [kernel2]
    (inversed (fq2 ((-3) ^ 2) 0)) (inversed (fq2 ((-3) ^ 3) 0)) x y (u0 :: us) (inv_zero_2 _ _ HI n9) (y2_nonzero x y C0) ND _).
  intros u Hu. split; [exact (off2 _ _ (XY2_on u))|]. destruct (m2_is u) as [M _]. rewrite (H u Hu), <- R0, M0 in M.
  destruct (Hp _ _ _ _ M) as [Ex Ey]. split; [symmetry; exact Ex|symmetry; exact Ey].
Qed.
End G2.

(** ** Two field elements with one point *)
Definition u_a : Z := 4.
Definition u_b : Z := 0x1785440d35bfffda4cd7b2e2c04ceba4ef3d1d2ddce08f72e05e3e29efc7155c732b170b47a939a1a0d7235c2ae90846.
Definition p_x : Z := 0x19294d12aeb025da170baa447d7d666e3d009924268b70b0b78b7cd8b621efe97523ed9204ae3b6e7e184f17b131ae38.
Definition p_y : Z := 0x2a9f85d56280d1d654201d73ff33e0e5d08116b1ebb433e2e77930d0d58a4230e6333c4acaa12720d2f2e1a70656be6.
Lemma has_point u : is0 (dz u) = false ->
  let k := 0x144698a3b8e9433d693a02c96d4982b0ea985383ee66a8d8e8981aefd881ac98936f8da0e0f97f5cf428082d584c1d in
  let b := 0x12e2908d11688030018b12e8753eee3b2016c1f0f24f4070a0b9c14fcef35ef55a23215a316ceaa5d1cc48e98e172be0 in
  (k * p_x * dz u mod q =? (- (b * (dz u + 1))) mod q) = true -> (p_y * p_y mod q =? gz p_x mod q) = true ->
  parity (fq p_y) = parity (fq u) -> sswu A1 B1 Z1 parity (fq u) (fq p_x) (fq p_y).
Proof.
  intros Nd0 k b Hx Hy Hs.
  assert (Et : mul Z1 (mul (fq u) (fq u)) = fq (tz u)) by (unfold Z1, tz; rewrite fq_red, !fq_mul; reflexivity).
  assert (Ed : add (mul (fq (tz u)) (fq (tz u))) (fq (tz u)) = fq (dz u)) by (unfold dz; rewrite fq_red, fq_add, !fq_mul; reflexivity).
  assert (Nd : fq (dz u) <> zero) by (apply fq_zero_neq; exact Nd0).
  assert (Ex : mul (mul A1 (fq p_x)) (fq (dz u)) = opp (mul B1 (add (fq (dz u)) one))).
  { unfold A1, B1. change (@one Fq) with (fq 1). rewrite <- fq_add, <- !fq_mul, <- fq_opp. apply fq_eqb. exact Hx. }
  assert (C : on_curve A1 B1 (fq p_x) (fq p_y)) by (unfold on_curve; rewrite <- fq_gz, <- fq_mul; apply fq_eqb; exact Hy).
  assert (S : square (rhs A1 B1 (fq p_x))) by (exists (fq p_y); exact C).
  exists (fq p_x). rewrite Et, Ed. split; [intros; contradiction|]. split; [intros _; exact Ex|]. split; [reflexivity|]. split; [intros K; destruct (K S)|]. split; [exact C|exact Hs].
Qed.
Theorem two_to_one : fq u_a <> fq u_b /\ sswu A1 B1 Z1 parity (fq u_a) (fq p_x) (fq p_y) /\ sswu A1 B1 Z1 parity (fq u_b) (fq p_x) (fq p_y).
Proof.
  split; [apply fq_neqb; vm_compute; reflexivity|]. split; apply has_point; vm_compute; reflexivity.
Qed.
