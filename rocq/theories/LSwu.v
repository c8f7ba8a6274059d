(** The simplified SWU map over any field. *)
From Coq Require Import ZArith Arith List Bool Lia Ring.
From Verif Require Import SpecPoseidon SpecH2C MH2C LPoseidonBij LH2CField.
Import ListNotations.

Section Swu.
Context {F : ring} (HR : is_ring F).
Lemma rt : ring_theory (@zero F) one add mul sub opp eq. Proof. exact HR. Qed.
Add Ring Fring : rt.
Context (inversed : F -> F) (is_square : F -> bool) (sqrt : F -> F) (is_zero : F -> bool) (sgn : F -> bool).
Context (HI : inverse_of_field inversed) (HS : decides_square is_square) (HQ : root_of_squares sqrt) (HZ : decides_zero is_zero).
Context (Sgn : forall y : F, y <> zero -> sgn (opp y) = negb (sgn y)).
Context (Ix : forall a b : F, ~ square a -> ~ square b -> square (mul a b)).
Context (One : @one F <> zero).
Context (A B Z : F) (NA : A <> zero) (NZ : ~ square Z) (NR : forall x, rhs A B x <> zero)
  (Ex : forall x, mul (mul Z A) x = B -> square (rhs A B x)).

Lemma inv_mul (x : F) : x <> zero -> mul x (inversed x) = one. Proof. apply HI. Qed.
Lemma no_zero_div (a b : F) : mul a b = zero -> a <> zero -> b = zero.
Proof. intros E N. transitivity (mul (mul a (inversed a)) b); [rewrite inv_mul by exact N; ring|]. transitivity (mul (inversed a) (mul a b)); [ring|rewrite E; ring]. Qed.
Lemma inv_zero (d : F) : inversed d = zero -> d = zero.
Proof.
  intros E. destruct (is_zero d) eqn:Ez; [now apply HZ|]. exfalso. assert (N : d <> zero) by (intros H; apply HZ in H; congruence).
  apply One. rewrite <- (inv_mul d N), E. ring.
Qed.
Lemma Z_nonzero : Z <> zero. Proof. intros ->. apply NZ. exists zero. ring. Qed.
Lemma ZA_nonzero : mul Z A <> zero. Proof. intros E. apply NA. apply (no_zero_div Z); [exact E|exact Z_nonzero]. Qed.
Lemma rhs_power x : add (add (power x 3) (mul A x)) B = rhs A B x.
Proof. unfold rhs. cbn [power]. ring. Qed.

Theorem swu_ok u : let '(x, y) := simple_swu inversed is_square sqrt is_zero sgn A B Z u in sswu A B Z sgn u x y.
Proof.
  unfold simple_swu. cbv zeta. rewrite !rhs_power.
  set (t := mul Z (mul u u)). set (d := add (mul t t) t).
  replace (add (mul (power Z 2) (power u 4)) (mul Z (power u 2))) with d by (unfold d, t; cbn [power]; ring).
  replace (mul Z (power u 2)) with t by (unfold t; cbn [power]; ring).
  set (x1 := if is_zero (inversed d) then div inversed B (mul Z A) else mul (div inversed (opp B) A) (add one (inversed d))).
  assert (H0 : d = zero -> mul (mul Z A) x1 = B).
  { intros E. unfold x1. replace (is_zero (inversed d)) with true by (symmetry; apply HZ; rewrite E; apply HI).
    unfold div. transitivity (mul (mul (mul Z A) (inversed (mul Z A))) B); [ring|]. rewrite inv_mul by exact ZA_nonzero. ring. }
  assert (H1 : d <> zero -> mul (mul A x1) d = opp (mul B (add d one))).
  { intros N. unfold x1. destruct (is_zero (inversed d)) eqn:Ez; [apply HZ, inv_zero in Ez; contradiction|].
    unfold div. transitivity (opp (mul B (mul (mul A (inversed A)) (add d (mul d (inversed d)))))); [ring|].
    rewrite !inv_mul by assumption. ring. }
  assert (D : d = zero \/ d <> zero).
  { destruct (is_zero d) eqn:E; [left; now apply HZ|right; intros H; apply HZ in H; congruence]. }
  assert (S2 : ~ square (rhs A B x1) -> square (rhs A B (mul t x1))).
  { intros N. destruct D as [D|D]; [destruct N; now apply Ex, H0|].
    assert (E : rhs A B (mul t x1) = mul (mul t (mul t t)) (rhs A B x1)).
    { unfold rhs. transitivity (sub (mul (mul t (mul t t)) (rhs A B x1)) (mul (sub t one) (add (mul (mul A x1) d) (mul B (add d one))))).
      - unfold rhs, d. ring.
      - rewrite (H1 D). unfold rhs. ring. }
    destruct (Ix _ _ NZ N) as [s Es]. exists (mul (mul Z (mul u (mul u u))) s). rewrite E.
    transitivity (mul (mul (mul Z (mul u (mul u u))) (mul Z (mul u (mul u u)))) (mul s s)); [ring|]. rewrite Es. unfold t. ring. }
  assert (G : forall x, square (rhs A B x) -> on_curve A B x (if negb (Bool.eqb (sgn u) (sgn (sqrt (rhs A B x)))) then opp (sqrt (rhs A B x)) else sqrt (rhs A B x))
      /\ sgn (if negb (Bool.eqb (sgn u) (sgn (sqrt (rhs A B x)))) then opp (sqrt (rhs A B x)) else sqrt (rhs A B x)) = sgn u).
  { intros x S. pose proof (HQ _ S) as E. set (y := sqrt (rhs A B x)) in *. unfold on_curve.
    assert (Ny : y <> zero) by (intros Ey; apply (NR x); rewrite <- E, Ey; ring).
    destruct (Bool.eqb (sgn u) (sgn y)) eqn:Q; cbn [negb].
    - split; [exact E|]. symmetry. now apply Bool.eqb_prop.
    - split; [rewrite <- E; ring|]. rewrite Sgn by exact Ny. destruct (sgn u), (sgn y); cbn in *; congruence. }
  destruct (is_square (rhs A B x1)) eqn:Sq.
  - pose proof (proj1 (HS _) Sq) as S. destruct (G x1 S) as [G1 G2]. exists x1. fold t. fold d. repeat split; auto; try (intros; contradiction).
  - assert (S : ~ square (rhs A B x1)) by (intros S; apply HS in S; congruence). destruct (G _ (S2 S)) as [G1 G2].
    exists x1. fold t. fold d. repeat split; auto; try (intros; contradiction).
Qed.
End Swu.
