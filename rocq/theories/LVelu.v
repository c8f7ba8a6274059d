(** What the code's evaluation of the isogenies computes is Vélu's formulas, scaled. *)
From Coq Require Import ZArith Arith List Bool Lia Ring.
From Verif Require Import SpecPoseidon SpecH2C MH2C LPoseidonBij LPoly LIso.
Import ListNotations.

Section Velu.
Context {R F : ring} (HR : is_ring F) (h : R -> F) (red : R -> R) (is0 : R -> bool).
Lemma rt : ring_theory (@zero F) one add mul sub opp eq. Proof. exact HR. Qed.
Add Ring Fring : rt.
Context (h0 : h zero = zero) (h1 : h one = one) (hadd : forall a b, h (add a b) = add (h a) (h b)) (hmul : forall a b, h (mul a b) = mul (h a) (h b))
  (hsub : forall a b, h (sub a b) = sub (h a) (h b)) (hred : forall a, h (red a) = h a) (his0 : forall a, is0 a = true -> h a = zero).
Context (inversed : F -> F) (is_zero : F -> bool) (HI : inverse_of_field inversed) (HZ : decides_zero is_zero) (One : @one F <> zero).
Context (a b : R).
Notation pev := (pev h).
Notation pmul := (pmul red).
Notation peq := (peq is0).
Definition vR (k : R) : R := velu_v a k.
Definition uR (k : R) : R := velu_u a b k.
(** (X - k)^2 and (X - k)^3. *)
Definition l2 (k : R) : list R := [red (mul k k); sub zero (mul two k); one].
Definition l3 (k : R) : list R := [sub zero (red (mul k (mul k k))); red (mul (add two one) (mul k k)); sub zero (mul (add two one) k); one].
Definition sc (c : R) (p : list R) : list R := map (mul c) p.
(** The denominators and the numerators, with few reductions, for the checker has no virtual machine. *)
Fixpoint polys (ks : list R) : list R * list R * list R * list R :=
  match ks with
  | [] => ([one], [one], [zero; one], [one])
  | k :: r =>
      let '(d2, d3, x, y) := polys r in
      let v := red (vR k) in
      let u := red (uR k) in
      (map red (pmul0 (l2 k) d2), map red (pmul0 (l3 k) d3),
       map red (padd (pmul0 (l2 k) x) (pmul0 [red (sub u (mul v k)); v] d2)),
       map red (psub (pmul0 (l3 k) y) (pmul0 [red (sub (mul two u) (mul v k)); v] d3)))
  end.
Fixpoint dval (ks : list R) (X : F) : F := match ks with [] => one | k :: r => mul (sub X (h k)) (dval r X) end.
Lemma h_two : h two = two. Proof. unfold two. now rewrite hadd, h1. Qed.
Lemma h_v k : h (vR k) = velu_v (h a) (h k). Proof. unfold vR, velu_v. now rewrite hmul, hadd, hmul, hadd, hmul, h_two, h1. Qed.
Lemma h_u k : h (uR k) = velu_u (h a) (h b) (h k). Proof. unfold uR, velu_u, rhs. now rewrite !hmul, !hadd, !hmul, h_two. Qed.
Lemma pev_red p X : pev (map red p) X = pev p X.
Proof. induction p as [|c p IH]; cbn [map LPoly.pev]; [reflexivity|]. now rewrite IH, hred. Qed.
Lemma pev_sc c p X : pev (sc c p) X = mul (h c) (pev p X).
Proof. apply (pev_scale HR h hmul). Qed.
Lemma pev_mul0 p r X : pev (pmul0 p r) X = mul (pev p X) (pev r X).
Proof. rewrite <- (pev_mul HR h (fun c => c) h0 hadd hmul (fun _ => eq_refl)). unfold LPoly.pmul. now rewrite map_id. Qed.
Lemma pev_l2 k X : pev (l2 k) X = mul (sub X (h k)) (sub X (h k)).
Proof. unfold l2. cbn [LPoly.pev]. rewrite hred, hsub, !hmul, h_two, h0, h1. unfold two. ring. Qed.
Lemma pev_l3 k X : pev (l3 k) X = mul (sub X (h k)) (mul (sub X (h k)) (sub X (h k))).
Proof. unfold l3. cbn [LPoly.pev]. rewrite !hsub, !hred, !hmul, hadd, h_two, h0, h1. unfold two. ring. Qed.
Lemma pev_vu c v k X : pev [red (sub c (mul v k)); v] X = add (mul (h v) (sub X (h k))) (h c).
Proof. cbn [LPoly.pev]. rewrite hred, hsub, hmul. ring. Qed.
Ltac pv := repeat first [rewrite pev_red | rewrite (pev_add HR h hadd) | rewrite (pev_sub HR h h0 hadd hsub) | rewrite pev_mul0 | rewrite pev_l2 | rewrite pev_l3 | rewrite pev_vu].
Lemma inv_sub k X : X <> k -> mul (sub X k) (inversed (sub X k)) = one.
Proof. intros N. apply HI. intros E. apply N. transitivity (add (sub X k) k); [ring|]. rewrite E. ring. Qed.
Lemma polys_ok ks X : ~ In X (map h ks) ->
  let '(d2, d3, x, y) := polys ks in
  let D := dval ks X in
  D <> zero /\ pev d2 X = mul D D /\ pev d3 X = mul D (mul D D) /\
  pev x X = mul (velu_x inversed (h a) (h b) (map h ks) X) (mul D D) /\
  pev y X = mul (velu_dx inversed (h a) (h b) (map h ks) X) (mul D (mul D D)).
Proof.
  induction ks as [|k r IH]; intros N; cbn [map velu_x velu_dx dval polys].
  - cbv zeta. cbn [LPoly.pev]. rewrite h0, h1. split; [exact One|]. repeat split; ring.
  - cbn [map In] in N. assert (N1 : X <> h k) by (intros E; apply N; left; now symmetry). assert (N2 : ~ In X (map h r)) by tauto.
    specialize (IH N2). destruct (polys r) as [[[d2 d3] px] py]. cbv zeta in *. destruct IH as (I0 & I1 & I2 & I3 & I4).
    pv. rewrite I1, I2, I3, I4, !hred, hmul, !hred, h_two, h_v, h_u. pose proof (inv_sub _ _ N1) as I.
    set (i := inversed (sub X (h k))) in *. set (d := sub X (h k)) in *. set (D := dval r X) in *. set (v := velu_v (h a) (h k)). set (u := velu_u (h a) (h b) (h k)).
    set (x := velu_x _ _ _ _ _). set (y := velu_dx _ _ _ _ _).
    split. { apply (mul_nonzero HR inversed HI One); [|exact I0]. intros E. apply One. rewrite <- I, E. ring. }
    split; [ring|]. split; [ring|]. split.
    + symmetry. transitivity (add (mul (mul x (mul D D)) (mul d d)) (mul (mul D D) (add (mul v (mul d (mul d i))) (mul u (mul (mul d i) (mul d i)))))); [ring|]. rewrite I. ring.
    + symmetry. transitivity (sub (mul (mul y (mul D (mul D D))) (mul d (mul d d))) (mul (mul D (mul D D)) (add (mul v (mul d (mul (mul d i) (mul d i)))) (mul (mul two u) (mul (mul d i) (mul (mul d i) (mul d i))))))); [ring|]. rewrite I. ring.
Qed.

Context (n : nat) (kxn kxd kyn kyd : list R) (ks : list R) (sx sy : R).
Context (Ld : length kxn <= S n /\ length kxd <= n /\ length kyn <= S n /\ length kyd <= n).
Definition velu_check : bool :=
  let '(d2, d3, x, y) := polys ks in
  peq d2 (kxd ++ [one]) && peq d3 (kyd ++ [one]) && peq (sc sx kxn) x && peq (sc sy kyn) y.
Context (Ck : velu_check = true).
Context (Nx : h sx <> zero) (Ny : h sy <> zero).
Context {G : Type} (point : F -> F -> G) (group_one : G).
Theorem iso_velu X Y : ~ In X (map h ks) ->
  iso_map inversed is_zero h zero n kxn kxd kyn kyd point group_one X Y =
  point (mul (velu_x inversed (h a) (h b) (map h ks) X) (inversed (h sx)))
        (mul (velu_y inversed (h a) (h b) (map h ks) X Y) (inversed (h sy))).
Proof.
  intros NI. pose proof (polys_ok ks X NI) as P. unfold velu_check in Ck. destruct (polys ks) as [[[d2 d3] px] py]. cbv zeta in P. destruct P as (N & E2 & E3 & EX & EY).
  apply andb_prop in Ck. destruct Ck as [Ck' C4]. apply andb_prop in Ck'. destruct Ck' as [Ck' C3]. apply andb_prop in Ck'. destruct Ck' as [C1 C2].
  unfold iso_map. cbv zeta.
  rewrite !(den_ok HR h h1), !(k_sum_ok HR h) by apply Ld.
  rewrite <- (peq_ok HR h is0 h0 hadd hsub his0 _ _ X C1), <- (peq_ok HR h is0 h0 hadd hsub his0 _ _ X C2), E2, E3.
  pose proof (peq_ok HR h is0 h0 hadd hsub his0 _ _ X C3) as PX. pose proof (peq_ok HR h is0 h0 hadd hsub his0 _ _ X C4) as PY.
  rewrite pev_sc, EX in PX. rewrite pev_sc, EY in PY.
  unfold velu_y. set (D := dval ks X) in *.
  set (x := velu_x _ _ _ _ _) in *. set (y := velu_dx _ _ _ _ _) in *. set (p := LPoly.pev h kxn X) in *. set (r := LPoly.pev h kyn X) in *.
  clearbody D x y p r. clear EX EY C1 C2 C3 C4 Ck.
  assert (Zx : is_zero (mul D D) = false). { destruct (is_zero (mul D D)) eqn:E; [|reflexivity]. apply HZ in E. now apply (mul_nonzero HR inversed HI One) in E. }
  assert (Zy : is_zero (mul D (mul D D)) = false). { destruct (is_zero (mul D (mul D D))) eqn:E; [|reflexivity]. apply HZ in E. apply (mul_nonzero HR inversed HI One) in E; [destruct E|exact N|now apply (mul_nonzero HR inversed HI One)]. }
  rewrite Zx, Zy. cbn [orb]. unfold div.
  pose proof (proj2 HI D N) as ID. set (I := inversed D) in *.
  assert (I2 : inversed (mul D D) = mul I I). { apply (inv_unique HR inversed HI One). transitivity (mul (mul D I) (mul D I)); [ring|]. rewrite ID. ring. }
  assert (I3 : inversed (mul D (mul D D)) = mul I (mul I I)). { apply (inv_unique HR inversed HI One). transitivity (mul (mul D I) (mul (mul D I) (mul D I))); [ring|]. rewrite ID. ring. }
  rewrite I2, I3. pose proof (proj2 HI _ Nx) as IX. pose proof (proj2 HI _ Ny) as IY.
  set (jx := inversed (h sx)) in *. set (jy := inversed (h sy)) in *.
  assert (Ex : mul p (mul I I) = mul x jx).
  { transitivity (mul (mul (mul (h sx) p) jx) (mul I I)); [transitivity (mul (mul (h sx) jx) (mul p (mul I I))); [rewrite IX; ring|ring]|].
    rewrite PX. transitivity (mul (mul x jx) (mul (mul D I) (mul D I))); [ring|]. rewrite ID. ring. }
  assert (Ey : mul r (mul I (mul I I)) = mul y jy).
  { transitivity (mul (mul (mul (h sy) r) jy) (mul I (mul I I))); [transitivity (mul (mul (h sy) jy) (mul r (mul I (mul I I)))); [rewrite IY; ring|ring]|].
    rewrite PY. transitivity (mul (mul y jy) (mul (mul D I) (mul (mul D I) (mul D I)))); [ring|]. rewrite ID. ring. }
  f_equal; [exact Ex|]. transitivity (mul Y (mul r (mul I (mul I I)))); [ring|]. rewrite Ey. ring.
Qed.
End Velu.
