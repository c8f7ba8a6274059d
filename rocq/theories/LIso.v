(** What the code's evaluation of the isogenies computes. *)
From Coq Require Import ZArith Arith List Bool Lia Ring.
From Verif Require Import SpecPoseidon SpecH2C MH2C LPoseidonBij LPoly.
Import ListNotations.

Section Iso.
Context {R F : ring} (HR : is_ring F) (h : R -> F) (red : R -> R) (is0 : R -> bool).
Lemma rt : ring_theory (@zero F) one add mul sub opp eq. Proof. exact HR. Qed.
Add Ring Fring : rt.
Context (h0 : h zero = zero) (h1 : h one = one) (hadd : forall a b, h (add a b) = add (h a) (h b)) (hmul : forall a b, h (mul a b) = mul (h a) (h b))
  (hsub : forall a b, h (sub a b) = sub (h a) (h b)) (hred : forall a, h (red a) = h a) (his0 : forall a, is0 a = true -> h a = zero).
Notation pev := (pev h).
Notation pmul := (pmul red).
Notation peq := (peq is0).

(** ** Sums of coefficients and powers *)
Lemma xi_S n (X : F) : xi_powers (S n) X = xi_powers n X ++ [mul (last (xi_powers n X) zero) X].
Proof. unfold xi_powers. rewrite seq_S, fold_left_app. reflexivity. Qed.
Lemma xi_ok n (X : F) : length (xi_powers n X) = S n /\ forall i, i <= n -> nth i (xi_powers n X) zero = power X i.
Proof.
  induction n as [|n [L IH]].
  - split; [reflexivity|]. intros i Hi. replace i with 0 by lia. reflexivity.
  - rewrite xi_S. split; [rewrite app_length, L; cbn; lia|]. intros i Hi. destruct (Nat.eq_dec i (S n)) as [->|N].
    + rewrite app_nth2, L, Nat.sub_diag by lia. cbn [nth power]. replace (last (xi_powers n X) zero) with (nth n (xi_powers n X) zero).
      * rewrite IH by lia. ring.
      * clear - L. revert L. generalize (xi_powers n X). intros l. revert n. induction l as [|a l IH]; intros n L; [discriminate L|].
        destruct l as [|b l]; cbn [length] in L; [replace n with 0 by lia; reflexivity|]. destruct n as [|n]; [lia|]. exact (IH n ltac:(cbn [length]; lia)).
    + rewrite app_nth1 by lia. apply IH. lia.
Qed.
Lemma pev_snoc p c X : pev (p ++ [c]) X = add (pev p X) (mul (h c) (power X (length p))).
Proof.
  induction p as [|a p IH]; cbn [app LPoly.pev length power].
  - ring.
  - rewrite IH. ring.
Qed.
Lemma k_sum_ok n (X : F) (k : list R) : length k <= S n -> k_sum h zero k (xi_powers n X) = pev k X.
Proof.
  intros L. unfold k_sum. destruct (xi_ok n X) as [_ N].
  assert (G : forall m, m <= length k -> fold_left (fun s i => add s (mul (h (nth i k zero)) (nth i (xi_powers n X) zero))) (seq 0 m) zero = pev (firstn m k) X).
  { induction m as [|m IH]; intros Hm; [reflexivity|]. rewrite seq_S, fold_left_app, IH by lia. cbn [fold_left plus].
    assert (E : firstn (S m) k = firstn m k ++ [nth m k zero]).
    { clear - Hm. revert k Hm. induction m as [|m IH]; intros [|a k] Hm; cbn [length] in Hm; try lia; [reflexivity|]. cbn [firstn nth app]. f_equal. apply IH. lia. }
    rewrite E, pev_snoc, firstn_length, Nat.min_l, N by lia. reflexivity. }
  rewrite G by lia. now rewrite firstn_all.
Qed.
Lemma den_ok n (X : F) (k : list R) : length k <= n -> add (k_sum h zero k (xi_powers n X)) (nth (length k) (xi_powers n X) zero) = pev (k ++ [one]) X.
Proof. intros L. rewrite k_sum_ok, pev_snoc, h1 by lia. destruct (xi_ok n X) as [_ N]. rewrite N by lia. ring. Qed.

(** ** The map *)
Context (inversed : F -> F) (is_zero : F -> bool) (HI : inverse_of_field inversed) (HZ : decides_zero is_zero) (One : @one F <> zero).
Lemma inv_mul (x : F) : x <> zero -> mul x (inversed x) = one. Proof. apply HI. Qed.
Lemma mul_nonzero (a b : F) : a <> zero -> b <> zero -> mul a b <> zero.
Proof.
  intros Na Nb E. apply One. transitivity (mul (mul a (inversed a)) (mul b (inversed b))); [now rewrite !inv_mul; [ring|..]|].
  transitivity (mul (mul a b) (mul (inversed a) (inversed b))); [ring|]. rewrite E. ring.
Qed.
Lemma inv_unique (x y : F) : mul x y = one -> inversed x = y.
Proof.
  intros E. assert (N : x <> zero) by (intros ->; apply One; rewrite <- E; ring).
  transitivity (mul (mul x y) (inversed x)); [rewrite E; ring|]. transitivity (mul (mul x (inversed x)) y); [ring|]. rewrite inv_mul by exact N. ring.
Qed.
Context (n : nat) (kxn kxd kyn kyd d g : list R) (b : R).
Context (Ld : length kxn <= S n /\ length kxd <= n /\ length kyn <= S n /\ length kyd <= n).
Context (C1 : peq (pmul d d) (kxd ++ [one]) = true) (C2 : peq (pmul d (kxd ++ [one])) (kyd ++ [one]) = true).
Context (C3 : peq (pmul (pmul kyn kyn) g) (padd (pmul kxn (pmul kxn kxn)) (map (mul b) (pmul (kyd ++ [one]) (kyd ++ [one])))) = true).
Context {G : Type} (point : F -> F -> G) (group_one : G).
Lemma xd_eq X : pev (kxd ++ [one]) X = mul (pev d X) (pev d X).
Proof. etransitivity; [|apply (pev_mul HR h red h0 hadd hmul hred)]. symmetry. apply (peq_ok HR h is0 h0 hadd hsub his0). exact C1. Qed.
Lemma yd_eq X : pev (kyd ++ [one]) X = mul (pev d X) (mul (pev d X) (pev d X)).
Proof. rewrite <- xd_eq. etransitivity; [|apply (pev_mul HR h red h0 hadd hmul hred)]. symmetry. apply (peq_ok HR h is0 h0 hadd hsub his0). exact C2. Qed.
Definition cube (x : F) : F := mul x (mul x x).
Lemma key X : mul (mul (pev kyn X) (pev kyn X)) (pev g X) =
  add (cube (pev kxn X)) (mul (h b) (mul (cube (pev d X)) (cube (pev d X)))).
Proof.
  pose proof (peq_ok HR h is0 h0 hadd hsub his0 _ _ X C3) as E. rewrite (pev_add HR h hadd), (pev_scale HR h hmul) in E.
  rewrite !(pev_mul HR h red h0 hadd hmul hred), !yd_eq in E. exact E.
Qed.
Lemma iso_zero X Y : pev d X = zero -> iso_map inversed is_zero h zero n kxn kxd kyn kyd point group_one X Y = group_one.
Proof.
  intros E. unfold iso_map. cbv zeta. rewrite !den_ok, xd_eq by apply Ld. rewrite E.
  replace (is_zero (mul zero zero)) with true; [reflexivity|]. symmetry. apply HZ. ring.
Qed.
Theorem iso_ok X Y : pev d X <> zero -> mul Y Y = pev g X ->
  exists x y, iso_map inversed is_zero h zero n kxn kxd kyn kyd point group_one X Y = point x y /\ mul y y = add (cube x) (h b).
Proof.
  intros N EY. unfold iso_map. cbv zeta. rewrite !den_ok, !k_sum_ok by apply Ld. rewrite xd_eq, yd_eq.
  set (D := pev d X) in *.
  assert (Zx : is_zero (mul D D) = false). { destruct (is_zero (mul D D)) eqn:E; [|reflexivity]. apply HZ in E. now apply mul_nonzero in E. }
  assert (Zy : is_zero (mul D (mul D D)) = false). { destruct (is_zero (mul D (mul D D))) eqn:E; [|reflexivity]. apply HZ in E. apply mul_nonzero in E; [destruct E|exact N|now apply mul_nonzero]. }
  rewrite Zx, Zy. cbn [orb]. eexists; eexists; split; [reflexivity|]. unfold div.
  pose proof (inv_mul D N) as ID. set (I := inversed D) in *.
  assert (I2 : inversed (mul D D) = mul I I). { apply inv_unique. transitivity (mul (mul D I) (mul D I)); [ring|]. rewrite ID. ring. }
  assert (I3 : inversed (mul D (mul D D)) = mul I (mul I I)). { apply inv_unique. transitivity (mul (mul D I) (mul (mul D I) (mul D I))); [ring|]. rewrite ID. ring. }
  rewrite I2, I3. transitivity (mul (mul (mul Y Y) (mul (pev kyn X) (pev kyn X))) (mul (cube I) (cube I))); [unfold cube; ring|].
  rewrite EY. transitivity (mul (mul (mul (pev kyn X) (pev kyn X)) (pev g X)) (mul (cube I) (cube I))); [ring|]. rewrite key. fold D.
  transitivity (add (mul (cube (pev kxn X)) (mul (cube I) (cube I))) (mul (h b) (mul (cube (mul D I)) (cube (mul D I))))); [unfold cube; ring|].
  rewrite ID. unfold cube. ring.
Qed.
(** A root of g away from the kernel gives a cube root of -b. *)
Lemma root_cube X : pev d X <> zero -> pev g X = zero -> exists z, cube z = opp (h b).
Proof.
  intros N E. pose proof (key X) as K. rewrite E in K. set (D := pev d X) in *. pose proof (inv_mul D N) as ID. set (I := inversed D) in *.
  exists (mul (pev kxn X) (mul I I)).
  transitivity (sub (mul (add (cube (pev kxn X)) (mul (h b) (mul (cube D) (cube D)))) (mul (cube I) (cube I))) (mul (h b) (mul (cube (mul D I)) (cube (mul D I))))); [unfold cube; ring|].
  rewrite <- K, ID. unfold cube. ring.
Qed.
End Iso.
