(** The map of BLS12-381's G2, and inputs of the map of G1 in the kernel. *)
From Coq Require Import ZArith Znumtheory Arith List Bool Lia Ring.
From Verif Require Import SpecPoseidon SpecH2C MH2CTables MH2C LPoseidonBij LFermat LZp LPrimes381 LH2CField LSwu LPoly LIso LH2CCert LH2C.
Import ListNotations.
Local Open Scope Z_scope.
Opaque bls12_381_q.
Add Ring Fqring : rt1.
Add Ring Fq2ring : rt2.

(** ** The computing ring *)
Notation Zi := (complex Zring).
Definition coefi (a : Zi) : Fq2 := coef2 a.
Definition red2 (a : Zi) : Zi := (fst a mod q, snd a mod q).
Definition is02 (a : Zi) : bool := is0 (fst a) && is0 (snd a).
Lemma c2_0 : coefi zero = zero. Proof. reflexivity. Qed.
Lemma c2_1 : coefi one = one. Proof. reflexivity. Qed.
Lemma c2_add a b : coefi (add a b) = add (coefi a) (coefi b).
Proof. destruct a, b. unfold coefi, coef2, fq2. cbn [complex Zring add fst snd car]. now rewrite !fq_add. Qed.
Lemma c2_sub a b : coefi (sub a b) = sub (coefi a) (coefi b).
Proof. destruct a, b. unfold coefi, coef2, fq2. cbn [complex Zring sub fst snd car]. now rewrite !fq_sub. Qed.
Lemma c2_mul a b : coefi (mul a b) = mul (coefi a) (coefi b).
Proof. destruct a, b. unfold coefi, coef2, fq2. cbn [complex Zring add sub mul fst snd car]. now rewrite fq_sub, fq_add, !fq_mul. Qed.
Lemma c2_red a : coefi (red2 a) = coefi a.
Proof. destruct a. unfold coefi, coef2, fq2, red2. cbn [fst snd]. now rewrite !fq_red. Qed.
Lemma c2_is0 a : is02 a = true -> coefi a = zero.
Proof. destruct a as [a b]. unfold is02. cbn [fst snd]. intros H. apply andb_prop in H. destruct H as [H1 H2]. unfold coefi, coef2, fq2. cbn [fst snd]. now rewrite (fq_is0 _ H1), (fq_is0 _ H2). Qed.
Lemma c2_eq (a b : Zi) : is02 (sub a b) = true -> coefi a = coefi b.
Proof.
  intros H. apply c2_is0 in H. rewrite c2_sub in H. transitivity (add (sub (coefi a) (coefi b)) (coefi b)); [ring|]. rewrite H. ring.
Qed.
Lemma c2_neq (a : Zi) : is02 a = false -> coefi a <> zero.
Proof.
  destruct a as [a b]. unfold is02. cbn [fst snd]. intros H E. apply andb_false_iff in H. destruct H as [H|H]; apply fq_zero_neq in H; apply H.
  - exact (f_equal fst E).
  - exact (f_equal snd E).
Qed.
Definition normz (a : Zi) : Z := fst a * fst a + snd a * snd a.
Lemma norm_coef a : norm q (coefi a) = fq (normz a).
Proof. destruct a as [a b]. unfold normz. cbn [fst snd]. rewrite fq_add, !fq_mul. reflexivity. Qed.
Lemma c2_nonsquare (a : Zi) s : (s * s mod q =? (- normz a) mod q) = true -> is0 (normz a) = false -> ~ square (coefi a).
Proof. intros H N S. apply (fq_nonsquare _ s H N). rewrite <- norm_coef. exact (square_norm q (coefi a) S). Qed.
Lemma c2_square (a s : Zi) : is02 (sub (mul s s) a) = true -> square (coefi a).
Proof. intros H. exists (coefi s). rewrite <- c2_mul. now apply c2_eq. Qed.
Lemma Fq2_integral (a b : Fq2) : mul a b = zero -> a = zero \/ b = zero. Proof. exact (fp2_integral q Pq P4 a b). Qed.
Lemma Fq2_dec (a b : Fq2) : {a = b} + {a <> b}. Proof. exact (fp2_dec q a b). Qed.
Lemma sub_zero2 (a b : Fq2) : sub a b = zero -> a = b. Proof. intros H. transitivity (add (sub a b) b); [ring|]. rewrite H. ring. Qed.
Lemma sub_zero1 (a b : Fq) : sub a b = zero -> a = b. Proof. intros H. transitivity (add (sub a b) b); [ring|]. rewrite H. ring. Qed.

(** ** -4(1+i) is not a cube: its norm would be *)
Lemma no_cube2 (z : Fq2) : cube z <> opp (fq2 4 4).
Proof.
  intros E. set (n := norm q z : Fq). assert (En : cube n = fq 32).
  { change (cube n) with (mul (norm q z) (mul (norm q z) (norm q z)) : Fq). transitivity (norm q (cube z) : Fq).
    - unfold cube. rewrite !norm_mul. reflexivity.
    - rewrite E. change (opp (fq2 4 4)) with (coefi (-4, -4)). rewrite norm_coef. reflexivity. }
  assert (X : exists h : Fq, mul (fq 2) h = one).
  { exists (inv_ q (fq 2)). apply (proj2 (inv_ok q Pq P4)). apply fq_zero_neq. vm_compute. reflexivity. }
  destruct X as [h Hh]. apply (no_cube (opp (mul n h))).
  transitivity (opp (mul (cube n) (cube h))); [unfold cube; ring|]. rewrite En. replace (fq 32) with (mul (fq 4) (cube (fq 2))) by (unfold cube; rewrite <- !fq_mul; reflexivity).
  transitivity (opp (mul (fq 4) (cube (mul (fq 2) h)))); [generalize (fq 4), (fq 2); intros; unfold cube; ring|]. rewrite Hh. change (fq (-4)) with (fq (- (4))). rewrite (fq_opp 4). generalize (fq 4). intros. unfold cube. ring.
Qed.

(** ** The isogeny *)
Definition g2_poly : list Zi := [(1012, 1012); (0, 240); (0, 0); (1, 0)].
Definition d2 : list Zi := [(6, -6); (1, 0)].
Lemma pev_g2 x : pev coefi g2_poly x = rhs A2 B2 x.
Proof.
  unfold g2_poly. cbn [pev]. change (coefi (1012, 1012)) with B2. change (coefi (0, 240)) with A2. change (coefi (0, 0)) with (@zero Fq2). change (coefi (1, 0)) with (@one Fq2).
  generalize A2, B2. intros. unfold rhs. ring.
Qed.
Lemma g2_C1 : peq is02 (pmul red2 d2 d2) (g2_k_x_den ++ [(1, 0)]) = true. Proof. vm_compute. reflexivity. Qed.
Lemma g2_C2 : peq is02 (pmul red2 d2 (g2_k_x_den ++ [(1, 0)])) (g2_k_y_den ++ [(1, 0)]) = true. Proof. vm_compute. reflexivity. Qed.
Lemma g2_C3 : peq is02 (pmul red2 (pmul red2 g2_k_y_num g2_k_y_num) g2_poly)
  (padd (pmul red2 g2_k_x_num (pmul red2 g2_k_x_num g2_k_x_num)) (map (@mul Zi (4, 4)) (pmul red2 (g2_k_y_den ++ [(1, 0)]) (g2_k_y_den ++ [(1, 0)])))) = true.
Proof. vm_compute. reflexivity. Qed.
Lemma g2_d_kernel x : pev coefi d2 x = zero <-> x = kernel2.
Proof.
  unfold d2. cbn [pev]. change (coefi (1, 0)) with (@one Fq2). replace (coefi (6, -6)) with (opp kernel2).
  - generalize kernel2. intros k. replace (add (opp k) (mul x (add one (mul x zero)))) with (sub x k) by ring. split; [apply sub_zero2|intros ->; ring].
  - change (opp kernel2) with (opp (fq (-6)), opp (fq 6)). rewrite <- !fq_opp. reflexivity.
Qed.
Definition gzi (x : Zi) : Zi := add (add (mul x (mul x x)) (@mul Zi (0, 240) x)) (1012, 1012).
Lemma c2_gzi x : coefi (gzi x) = rhs A2 B2 (coefi x).
Proof. unfold gzi, rhs. rewrite !c2_add, !c2_mul. reflexivity. Qed.
Lemma kernel2_nonsquare : ~ square (rhs A2 B2 kernel2).
Proof. change kernel2 with (coefi (-6, 6)). rewrite <- c2_gzi. apply (c2_nonsquare _ c_n2); vm_compute; reflexivity. Qed.
Lemma g2_Ld : (length g2_k_x_num <= 4 /\ length g2_k_x_den <= 3 /\ length g2_k_y_num <= 4 /\ length g2_k_y_den <= 3)%nat. Proof. cbn [length g2_k_x_num g2_k_x_den g2_k_y_num g2_k_y_den]. lia. Qed.
Lemma g2_no_root x : rhs A2 B2 x <> zero.
Proof.
  intros E. destruct (Fq2_dec x kernel2) as [D|D].
  - apply kernel2_nonsquare. rewrite <- D, E. exists zero. ring.
  - rewrite <- g2_d_kernel in D. rewrite <- pev_g2 in E.
    destruct (root_cube Fq2_ring coefi red2 is02 c2_0 c2_add c2_mul c2_sub c2_red c2_is0 (inv2 q) (inv2_ok q Pq P4)
      g2_k_x_num g2_k_x_den g2_k_y_num g2_k_y_den d2 g2_poly (4, 4) g2_C1 g2_C2 g2_C3 x D E) as [z Hz].
    exact (no_cube2 z Hz).
Qed.
Lemma g2_exc x : mul (mul Z2 A2) x = B2 -> square (rhs A2 B2 x).
Proof.
  change Z2 with (coefi (-2, -1)). change A2 with (coefi (0, 240)) at 1. change B2 with (coefi (1012, 1012)) at 1. rewrite <- c2_mul. intros E.
  assert (N : coefi (@mul Zi (-2, -1) (0, 240)) <> zero) by (apply c2_neq; vm_compute; reflexivity).
  assert (Ex : x = coefi c_ex2).
  { assert (E2 : mul (coefi (@mul Zi (-2, -1) (0, 240))) (coefi c_ex2) = coefi (1012, 1012)) by (rewrite <- c2_mul; apply c2_eq; vm_compute; reflexivity).
    rewrite <- E in E2. revert N E2. generalize (coefi (@mul Zi (-2, -1) (0, 240))), (coefi c_ex2). intros a b N E2.
    apply sub_zero2. destruct (Fq2_integral a (sub x b)) as [H|H]; [|contradiction|exact H].
    transitivity (sub (mul a x) (mul a b)); [ring|]. rewrite E2. ring. }
  subst x. rewrite <- c2_gzi. apply (c2_square _ c_ey2). vm_compute. reflexivity.
Qed.
Lemma Z2_nonsquare : ~ square Z2.
Proof. change Z2 with (coefi (-2, -1)). apply (c2_nonsquare _ c_m5); vm_compute; reflexivity. Qed.
Lemma A2_nonzero : A2 <> zero. Proof. change A2 with (coefi (0, 240)). apply c2_neq. vm_compute. reflexivity. Qed.
Lemma val_zero (x : Fq) : proj1_sig x = 0 <-> x = zero.
Proof.
  pose proof q_pos. split; [|intros ->; change (0 mod q = 0); apply Z.mod_0_l; lia]. intros E. apply zp_eq. change (proj1_sig (@zero Fq)) with (0 mod q). rewrite Z.mod_0_l by lia. exact E.
Qed.
Lemma parity2_opp (y : Fq2) : y <> zero -> parity2 (opp y) = negb (parity2 y).
Proof.
  destruct y as [a b]. intros N. unfold parity2. change (fst (@opp Fq2 (a, b))) with (opp a). change (snd (@opp Fq2 (a, b))) with (opp b). cbn [fst snd].
  destruct (Fq_dec a zero) as [->|Na].
  - replace (opp (@zero Fq)) with (@zero Fq) by ring. rewrite (proj2 (val_zero zero) eq_refl). cbn [Z.eqb]. apply parity_opp. intros ->. now apply N.
  - assert (No : opp a <> zero) by (intros E; apply Na; transitivity (opp (opp a)); [ring|rewrite E; ring]).
    replace (proj1_sig a =? 0) with false by (symmetry; apply Z.eqb_neq; now rewrite val_zero).
    replace (proj1_sig (opp a) =? 0) with false by (symmetry; apply Z.eqb_neq; now rewrite val_zero). now apply parity_opp.
Qed.
Lemma sgn0_2_parity e : sgn0_2 e = parity2 e.
Proof.
  unfold sgn0_2, parity2, parity. cbv zeta. rewrite !Zmod_odd. destruct (Z.eqb_spec (proj1_sig (fst e)) 0) as [E|E].
  - rewrite E. cbn [Z.odd negb orb andb Z.eqb]. destruct (Z.odd (proj1_sig (snd e))); reflexivity.
  - cbn [andb]. rewrite orb_false_r. destruct (Z.odd (proj1_sig (fst e))); reflexivity.
Qed.
Theorem swu_g2 inversed is_square sqrt is_zero : inverse_of_field inversed -> decides_square is_square -> root_of_squares sqrt -> decides_zero is_zero ->
  forall u : Fq2, let '(x, y) := simple_swu inversed is_square sqrt is_zero sgn0_2 g2_Ai g2_Bi g2_Z u in sswu A2 B2 Z2 parity2 u x y.
Proof.
  intros HI HS HQ HZ u.
  pose proof (swu_ok Fq2_ring inversed is_square sqrt is_zero sgn0_2 HI HS HQ HZ) as H.
  assert (S : forall y : Fq2, y <> zero -> sgn0_2 (opp y) = negb (sgn0_2 y)) by (intros; rewrite !sgn0_2_parity; now apply parity2_opp).
  specialize (H S (fp2_index_two q Pq P4) one2 A2 B2 Z2 A2_nonzero Z2_nonsquare g2_no_root g2_exc u).
  assert (EZ : g2_Z = Z2). { change g2_Z with (opp (fq 2), opp (fq 1)). rewrite <- !fq_opp. reflexivity. }
  change g2_Ai with A2. change g2_Bi with B2. rewrite EZ. destruct (simple_swu inversed is_square sqrt is_zero sgn0_2 A2 B2 Z2 u) as [x y].
  destruct H as (x1 & H1 & H2 & H3 & H4 & H5 & H6). exists x1. repeat (split; [assumption|]). now rewrite <- !sgn0_2_parity.
Qed.
Section G2.
Context (inversed : Fq2 -> Fq2) (is_zero : Fq2 -> bool) (HI : inverse_of_field inversed) (HZ : decides_zero is_zero) {G : Type} (point : Fq2 -> Fq2 -> G) (group_one : G).
Theorem iso_g2 X Y : on_curve A2 B2 X Y -> exists x y, iso_map_g2 inversed is_zero point group_one X Y = point x y /\ E2 x y.
Proof.
  intros C. assert (N : pev coefi d2 X <> zero). { rewrite g2_d_kernel. intros ->. apply kernel2_nonsquare. exists Y. exact C. }
  assert (EY : mul Y Y = pev coefi g2_poly X) by (rewrite pev_g2; exact C).
  destruct (iso_ok Fq2_ring coefi red2 is02 c2_0 c2_1 c2_add c2_mul c2_sub c2_red c2_is0 inversed is_zero HI HZ one2
    3 g2_k_x_num g2_k_x_den g2_k_y_num g2_k_y_den d2 g2_poly (4, 4) g2_Ld g2_C1 g2_C2 g2_C3 point group_one X Y N EY) as (x & y & E & H).
  exists x, y. split; [exact E|]. unfold E2, on_curve, rhs. rewrite H. unfold cube. change (coefi (4, 4)) with (fq2 4 4). change (fq2 0 0) with (@zero Fq2). generalize (fq2 4 4). intros. ring.
Qed.
End G2.
