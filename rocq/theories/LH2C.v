(** The maps of BLS12-381. *)
From Coq Require Import ZArith Znumtheory Arith List Bool Lia Ring.
From Verif Require Import SpecPoseidon SpecH2C MH2CTables MH2C LPoseidonBij LFermat LZp LPrimes381 LH2CField LSwu LPoly LIso LH2CCert.
Import ListNotations.
Local Open Scope Z_scope.

Notation q := bls12_381_q.
Lemma Pq : prime q. Proof. exact prime_bls12_381_q. Qed.
Lemma P4 : q mod 4 = 3. Proof. vm_compute. reflexivity. Qed.
Lemma q_pos : 2 < q. Proof. exact (p_pos q Pq P4). Qed.
Opaque bls12_381_q.
Lemma Fq_ring : is_ring Fq. Proof. exact (zp_ring q). Qed.
Lemma Fq2_ring : is_ring Fq2. Proof. exact (complex_ring q). Qed.
Lemma rt1 : ring_theory (@zero Fq) one add mul sub opp eq. Proof. exact Fq_ring. Qed.
Add Ring Fqring : rt1.
Lemma rt2 : ring_theory (@zero Fq2) one add mul sub opp eq. Proof. exact Fq2_ring. Qed.
Add Ring Fq2ring : rt2.
Lemma fq_eq a b : a mod q = b mod q -> fq a = fq b. Proof. apply to_zp_mod. Qed.
Lemma fq_eqb a b : (a mod q =? b mod q) = true -> fq a = fq b. Proof. intros H. apply fq_eq, Z.eqb_eq, H. Qed.
Lemma fq_neqb a b : (a mod q =? b mod q) = false -> fq a <> fq b. Proof. intros H E. apply (f_equal (@proj1_sig _ _)) in E. apply Z.eqb_neq in H. apply H. exact E. Qed.
Lemma fq_mul a b : fq (a * b) = mul (fq a) (fq b). Proof. apply to_zp_mul. Qed.
Lemma fq_add a b : fq (a + b) = add (fq a) (fq b). Proof. apply to_zp_add. Qed.
Lemma fq_sub a b : fq (a - b) = sub (fq a) (fq b). Proof. apply to_zp_sub. Qed.
Lemma fq_opp a : fq (- a) = opp (fq a). Proof. apply to_zp_opp. Qed.
Lemma fq_red a : fq (a mod q) = fq a. Proof. apply fq_eq. apply Z.mod_mod. pose proof q_pos. lia. Qed.
Definition is0 (a : Z) : bool := a mod q =? 0.
Lemma fq_is0 a : is0 a = true -> fq a = zero.
Proof. intros H. apply Z.eqb_eq in H. change (@zero Fq) with (fq 0). apply fq_eq. rewrite H. symmetry. apply Z.mod_0_l. pose proof q_pos. lia. Qed.
Lemma fq_zero_neq a : is0 a = false -> fq a <> zero.
Proof. intros H E. apply Z.eqb_neq in H. apply H. apply (f_equal (@proj1_sig _ _)) in E. change (a mod q = 0 mod q) in E. rewrite E. apply Z.mod_0_l. pose proof q_pos. lia. Qed.
Lemma fq_square a s : (s * s mod q =? a mod q) = true -> square (fq a).
Proof. intros H. exists (fq s). rewrite <- fq_mul. now apply fq_eqb. Qed.
Lemma fq_nonsquare a s : (s * s mod q =? (- a) mod q) = true -> is0 a = false -> ~ square (fq a).
Proof.
  intros H N S. apply (fq_zero_neq _ N). apply (square_opp_zero q Pq P4); [exact S|]. exists (fq s). change (mul (fq s) (fq s) = opp (fq a)). rewrite <- fq_mul, <- fq_opp. now apply fq_eqb.
Qed.
Lemma one1 : @one Fq <> zero. Proof. exact (one_not_zero q Pq P4). Qed.
Lemma one2 : @one Fq2 <> zero. Proof. intros E. apply one1. exact (f_equal fst E). Qed.

Lemma Fq_integral (a b : Fq) : mul a b = zero -> a = zero \/ b = zero. Proof. exact (fp_integral q Pq P4 a b). Qed.
Lemma Fq_dec (a b : Fq) : {a = b} + {a <> b}. Proof. exact (fp_dec q a b). Qed.

(** ** -4 is not a cube *)
Definition c9 : Z := c_z9 ^ 3 mod q.
Lemma c9_facts : c9 ^ 3 mod q = 1 /\ c9 ^ ((q - 1) / 9 mod 3) mod q <> 1 /\ (q - 1) mod 9 = 0 /\ c_z9 * (c_s3 * (c_s3 * c_s3)) mod q = (-4) mod q /\ c_s3 mod q <> 0.
Proof.
  assert (H : (c9 ^ 3 mod q =? 1) && negb (c9 ^ ((q - 1) / 9 mod 3) mod q =? 1) && ((q - 1) mod 9 =? 0) && (c_z9 * (c_s3 * (c_s3 * c_s3)) mod q =? (-4) mod q) && negb (c_s3 mod q =? 0) = true) by (vm_compute; reflexivity).
  apply andb_prop in H; destruct H as [H H5]. apply andb_prop in H; destruct H as [H H4]. apply andb_prop in H; destruct H as [H H3]. apply andb_prop in H; destruct H as [H1 H2].
  apply negb_true_iff in H2, H5.
  split; [exact (proj1 (Z.eqb_eq _ _) H1)|]. split; [exact (proj1 (Z.eqb_neq _ _) H2)|]. split; [exact (proj1 (Z.eqb_eq _ _) H3)|]. split; [exact (proj1 (Z.eqb_eq _ _) H4)|exact (proj1 (Z.eqb_neq _ _) H5)].
Qed.
Lemma not_cube_gen p z c a : prime p -> c = z ^ 3 mod p -> c ^ 3 mod p = 1 -> c ^ ((p - 1) / 9 mod 3) mod p <> 1 -> (p - 1) mod 9 = 0 ->
  a ^ 3 mod p = z mod p -> ~ (p | a) -> False.
Proof.
  intros Pp Ec C3 Cr C9 E N. pose proof (prime_ge_2 p Pp). pose proof (fermat_unit p a Pp N) as H1.
  remember ((p - 1) / 9) as m eqn:Em0. assert (Em : p - 1 = 9 * m) by (clear - Em0 C9; pose proof (Z.div_mod (p - 1) 9 ltac:(lia)); lia).
  clear Em0 C9. assert (Hm : 0 <= m) by (clear - Em H; lia). pose proof (Z.div_mod m 3 ltac:(lia)) as Dm. pose proof (Z.mod_pos_bound m 3 ltac:(lia)).
  assert (Hk : 0 <= m / 3) by (apply Z.div_pos; lia).
  assert (A9 : a ^ 9 mod p = c). { change 9 with (3 * 3). rewrite Z.pow_mul_r by lia. rewrite <- pow_mod by lia. rewrite E, pow_mod by lia. symmetry. exact Ec. }
  rewrite Em, Z.pow_mul_r, <- pow_mod, A9 in H1 by lia. apply Cr.
  assert (K : c ^ (3 * (m / 3) + m mod 3) mod p = c ^ (m mod 3) mod p).
  { rewrite Z.pow_add_r by (clear - H0 Hk; lia). rewrite Z.pow_mul_r by (clear - Hk; lia). rewrite Z.mul_mod by (clear - H; lia).
    rewrite <- (pow_mod (c ^ 3)) by (clear - H; lia). rewrite C3, Z.pow_1_l by (clear - Hk; lia). rewrite Z.mod_1_l by (clear - H; lia). rewrite Z.mul_1_l. apply Z.mod_mod. clear - H; lia. }
  rewrite <- Dm in K. rewrite <- K. exact H1.
Qed.
Lemma z9_not_cube a : a ^ 3 mod q = c_z9 mod q -> ~ (q | a) -> False.
Proof.
  destruct c9_facts as (C3 & Cr & C9 & _). exact (not_cube_gen q c_z9 c9 a Pq eq_refl C3 Cr C9).
Qed.
Lemma no_cube (z : Fq) : cube z <> fq (-4).
Proof.
  intros E. destruct c9_facts as (_ & _ & _ & Es & Ns). set (s := fq c_s3).
  assert (Hs : s <> zero). { apply fq_zero_neq. apply Z.eqb_neq. exact Ns. }
  assert (X : exists si : Fq, mul s si = one) by (exists (inv_ q s); exact (proj2 (inv_ok q Pq P4) s Hs)). destruct X as [si I].
  assert (E2 : mul (fq c_z9) (cube s) = fq (-4)) by (unfold cube, s; rewrite <- !fq_mul; now apply fq_eq).
  set (w := mul z si). clearbody s.
  assert (W : cube w = fq c_z9).
  { unfold w. transitivity (mul (cube z) (cube si)); [unfold cube; ring|]. rewrite E, <- E2. generalize (fq c_z9). intros c.
    transitivity (mul c (cube (mul s si))); [unfold cube; ring|]. rewrite I. unfold cube. ring. }
  clearbody w. clear - W.
  apply (z9_not_cube (proj1_sig w)).
  - assert (W2 : fq (proj1_sig w * (proj1_sig w * proj1_sig w)) = fq c_z9).
    { rewrite !fq_mul. replace (fq (proj1_sig w)) with w by (symmetry; exact (to_zp_val q w)). exact W. }
    apply (f_equal (@proj1_sig _ _)) in W2. replace (proj1_sig w ^ 3) with (proj1_sig w * (proj1_sig w * proj1_sig w)) by ring. exact W2.
  - intros D. apply (zero_div q Pq P4 w) in D. change (w = zero) in D. rewrite D in W. revert W. change (cube (@zero Fq)) with (mul (@zero Fq) (mul zero zero)).
    replace (mul (@zero Fq) (mul zero zero)) with (@zero Fq) by ring. intros W. symmetry in W. revert W. apply fq_zero_neq. vm_compute. reflexivity.
Qed.

(** ** G1 *)
Definition g1_poly : list Z := [0x12e2908d11688030018b12e8753eee3b2016c1f0f24f4070a0b9c14fcef35ef55a23215a316ceaa5d1cc48e98e172be0;
  0x144698a3b8e9433d693a02c96d4982b0ea985383ee66a8d8e8981aefd881ac98936f8da0e0f97f5cf428082d584c1d; 0; 1].
Definition redq (a : Z) : Z := a mod q.
Lemma pev_g1 x : pev (R := Zring) fq g1_poly x = rhs A1 B1 x.
Proof. unfold g1_poly. cbn [pev]. fold A1. fold B1. change (fq 1) with (@one Fq). change (fq 0) with (@zero Fq). generalize A1, B1. intros. unfold rhs. ring. Qed.
Lemma g1_C1 : peq (R := Zring) is0 (pmul (R := Zring) redq c_d1 c_d1) (g1_k_x_den ++ [1]) = true. Proof. vm_compute. reflexivity. Qed.
Lemma g1_C2 : peq (R := Zring) is0 (pmul (R := Zring) redq c_d1 (g1_k_x_den ++ [1])) (g1_k_y_den ++ [1]) = true. Proof. vm_compute. reflexivity. Qed.
Lemma g1_C3 : peq (R := Zring) is0 (pmul (R := Zring) redq (pmul (R := Zring) redq g1_k_y_num g1_k_y_num) g1_poly)
  (padd (R := Zring) (pmul (R := Zring) redq g1_k_x_num (pmul (R := Zring) redq g1_k_x_num g1_k_x_num)) (map (Z.mul 4) (pmul (R := Zring) redq (g1_k_y_den ++ [1]) (g1_k_y_den ++ [1])))) = true.
Proof. vm_compute. reflexivity. Qed.
Lemma g1_kernel_C : peq (R := Zring) is0 (fold_right (fun k p => pmul (R := Zring) redq [- k; 1] p) [1] kernel1) c_d1 = true. Proof. vm_compute. reflexivity. Qed.
Lemma g1_d_kernel x : pev (R := Zring) fq c_d1 x = zero <-> In x (map fq kernel1).
Proof.
  rewrite <- (peq_ok (R := Zring) Fq_ring fq is0 eq_refl fq_add fq_sub fq_is0 _ _ x g1_kernel_C).
  generalize kernel1. intros l. induction l as [|k l IH]; cbn [fold_right map In].
  - split; [|intros []]. cbn [pev]. change (fq 1) with (@one Fq). intros E. apply one1. rewrite <- E. ring.
  - rewrite (pev_mul (R := Zring) Fq_ring fq redq eq_refl fq_add fq_mul fq_red). cbn [pev]. change (fq 1) with (@one Fq). rewrite fq_opp.
    replace (add (opp (fq k)) (mul x (add one (mul x zero)))) with (sub x (fq k)) by ring. rewrite <- IH. split.
    + intros E. destruct (Fq_integral _ _ E) as [H|H]; [left|right; exact H]. transitivity (sub x (sub x (fq k))); [ring|]. rewrite H. ring.
    + intros [<-|E]; [ring|rewrite E; ring].
Qed.
Definition gz (x : Z) : Z := x * (x * x) + 0x144698a3b8e9433d693a02c96d4982b0ea985383ee66a8d8e8981aefd881ac98936f8da0e0f97f5cf428082d584c1d * x +
  0x12e2908d11688030018b12e8753eee3b2016c1f0f24f4070a0b9c14fcef35ef55a23215a316ceaa5d1cc48e98e172be0.
Lemma fq_gz x : fq (gz x) = rhs A1 B1 (fq x).
Proof. unfold gz, rhs, A1, B1. now rewrite !fq_add, !fq_mul. Qed.
Lemma g1_kernel_nonzero x : In x (map fq kernel1) -> rhs A1 B1 x <> zero.
Proof.
  intros H. apply in_map_iff in H. destruct H as (k & <- & Hk). rewrite <- fq_gz. apply fq_zero_neq.
  assert (C : forallb (fun k => negb (is0 (gz k))) kernel1 = true) by (vm_compute; reflexivity).
  rewrite forallb_forall in C. apply negb_true_iff. now apply C.
Qed.
Definition iz1 (x : Fq) : bool := if Fq_dec x zero then true else false.
Lemma iz1_ok : decides_zero iz1. Proof. intros x. unfold iz1. destruct (Fq_dec x zero); split; congruence. Qed.
Lemma g1_Ld : (length g1_k_x_num <= 16 /\ length g1_k_x_den <= 15 /\ length g1_k_y_num <= 16 /\ length g1_k_y_den <= 15)%nat. Proof. cbn [length g1_k_x_num g1_k_x_den g1_k_y_num g1_k_y_den]. lia. Qed.
Lemma g1_no_root x : rhs A1 B1 x <> zero.
Proof.
  intros E. destruct (Fq_dec (pev (R := Zring) fq c_d1 x) zero) as [D|D].
  - apply g1_d_kernel in D. now apply g1_kernel_nonzero in D.
  - rewrite <- pev_g1 in E.
    destruct (root_cube (R := Zring) Fq_ring fq redq is0 eq_refl fq_add fq_mul fq_sub fq_red fq_is0 (inv_ q) (inv_ok q Pq P4)
      g1_k_x_num g1_k_x_den g1_k_y_num g1_k_y_den c_d1 g1_poly 4 g1_C1 g1_C2 g1_C3 x D E) as [z Hz].
    apply (no_cube z). rewrite Hz, <- fq_opp. reflexivity.
Qed.
Lemma g1_exc x : mul (mul Z1 A1) x = B1 -> square (rhs A1 B1 x).
Proof.
  intros E. assert (N : mul Z1 A1 <> zero) by (unfold Z1, A1; rewrite <- fq_mul; apply fq_zero_neq; vm_compute; reflexivity).
  assert (Ex : x = fq c_ex1).
  { assert (E2 : mul (mul Z1 A1) (fq c_ex1) = B1) by (unfold Z1, A1, B1; rewrite <- !fq_mul; apply fq_eqb; vm_compute; reflexivity).
    assert (H : mul (mul Z1 A1) (sub x (fq c_ex1)) = zero). { transitivity (sub (mul (mul Z1 A1) x) (mul (mul Z1 A1) (fq c_ex1))); [generalize Z1, A1; intros; ring|]. rewrite E, E2. generalize B1. intros. ring. }
    destruct (Fq_integral _ _ H) as [H0|H0]; [contradiction|]. transitivity (add (sub x (fq c_ex1)) (fq c_ex1)); [ring|]. rewrite H0. ring. }
  subst x. rewrite <- fq_gz. apply (fq_square _ c_ey1). vm_compute. reflexivity.
Qed.
Lemma Z1_nonsquare : ~ square Z1.
Proof. apply (fq_nonsquare _ c_m11); vm_compute; reflexivity. Qed.
Lemma A1_nonzero : A1 <> zero. Proof. apply fq_zero_neq. vm_compute. reflexivity. Qed.
Lemma val_opp (y : Fq) : y <> zero -> proj1_sig (opp y) = q - proj1_sig y /\ 0 < proj1_sig y < q.
Proof.
  intros N. pose proof (vrange q Pq P4 y) as V. unfold v_ in V. pose proof q_pos. assert (NZ : proj1_sig y <> 0).
  { intros E. apply N. apply zp_eq. change (proj1_sig (@zero Fq)) with (0 mod q). rewrite Z.mod_0_l by lia. exact E. }
  split; [|lia]. change (proj1_sig (opp y)) with ((- proj1_sig y) mod q). symmetry. apply (Z.mod_unique _ _ (-1)); lia.
Qed.
Lemma q_odd : Z.odd q = true. Proof. vm_compute. reflexivity. Qed.
Lemma parity_opp (y : Fq) : y <> zero -> parity (opp y) = negb (parity y).
Proof. intros N. unfold parity. destruct (val_opp y N) as [-> _]. rewrite Z.odd_sub, q_odd. destruct (Z.odd (proj1_sig y)); reflexivity. Qed.
Lemma sgn0_parity e : sgn0 e = parity e.
Proof. unfold sgn0, parity. rewrite Zmod_odd. destruct (Z.odd (proj1_sig e)); reflexivity. Qed.
Theorem swu_g1 inversed is_square sqrt is_zero : inverse_of_field inversed -> decides_square is_square -> root_of_squares sqrt -> decides_zero is_zero ->
  forall u : Fq, let '(x, y) := simple_swu inversed is_square sqrt is_zero sgn0 g1_Ai g1_Bi g1_Z u in sswu A1 B1 Z1 parity u x y.
Proof.
  intros HI HS HQ HZ u.
  pose proof (swu_ok Fq_ring inversed is_square sqrt is_zero sgn0 HI HS HQ HZ) as H.
  assert (S : forall y : Fq, y <> zero -> sgn0 (opp y) = negb (sgn0 y)) by (intros; rewrite !sgn0_parity; now apply parity_opp).
  specialize (H S (fp_index_two q Pq P4) one1 A1 B1 Z1 A1_nonzero Z1_nonsquare g1_no_root g1_exc u).
  change g1_Ai with A1. change g1_Bi with B1. change g1_Z with Z1. destruct (simple_swu inversed is_square sqrt is_zero sgn0 A1 B1 Z1 u) as [x y].
  destruct H as (x1 & H1 & H2 & H3 & H4 & H5 & H6). exists x1. repeat (split; [assumption|]). now rewrite <- !sgn0_parity.
Qed.
Section G1.
Context (inversed : Fq -> Fq) (is_zero : Fq -> bool) (HI : inverse_of_field inversed) (HZ : decides_zero is_zero) {G : Type} (point : Fq -> Fq -> G) (group_one : G).
Theorem iso_g1_off X Y : on_curve A1 B1 X Y -> ~ In X (map fq kernel1) -> exists x y, iso_map_g1 inversed is_zero point group_one X Y = point x y /\ E1 x y.
Proof.
  intros C N. rewrite <- g1_d_kernel in N.
  assert (EY : mul Y Y = pev (R := Zring) fq g1_poly X) by (rewrite pev_g1; exact C).
  destruct (iso_ok (R := Zring) Fq_ring fq redq is0 eq_refl eq_refl fq_add fq_mul fq_sub fq_red fq_is0 inversed is_zero HI HZ one1
    15 g1_k_x_num g1_k_x_den g1_k_y_num g1_k_y_den c_d1 g1_poly 4 g1_Ld g1_C1 g1_C2 g1_C3 point group_one X Y N EY) as (x & y & E & H).
  exists x, y. split; [exact E|]. unfold E1, on_curve, rhs. rewrite H. unfold cube. change (fq 0) with (@zero Fq). ring.
Qed.
Theorem iso_g1_kernel X Y : In X (map fq kernel1) -> iso_map_g1 inversed is_zero point group_one X Y = group_one.
Proof.
  intros N. apply g1_d_kernel in N.
  exact (iso_zero (R := Zring) Fq_ring fq redq is0 eq_refl eq_refl fq_add fq_mul fq_sub fq_red fq_is0 inversed is_zero HZ
    15 g1_k_x_num g1_k_x_den g1_k_y_num g1_k_y_den c_d1 g1_Ld g1_C1 point group_one X Y N).
Qed.
End G1.
