(** Squares in the integers modulo a prime p = 3 mod 4 and in its extension by i. *)
From Coq Require Import ZArith Znumtheory Arith List Bool Lia Ring.
From Verif Require Import SpecPoseidon SpecH2C LPoseidonBij LFermat LZp.
Import ListNotations.
Local Open Scope Z_scope.

Definition integral (F : ring) : Prop := forall a b : F, mul a b = zero -> a = zero \/ b = zero.
Definition index_two (F : ring) : Prop := forall a b : F, ~ square a -> ~ square b -> square (mul a b).
Definition square_decidable (F : ring) : Prop := forall a : F, square a \/ ~ square a.

Section P.
Context (p : Z) (Pp : prime p) (P4 : p mod 4 = 3).
Notation F := (Zp p).
Lemma p_pos : 2 < p.
Proof. pose proof (prime_ge_2 p Pp) as H. destruct (Z.eq_dec p 2) as [E|E]; [rewrite E in P4; discriminate P4|lia]. Qed.
Definition i_ (z : Z) : F := to_zp p z.
Definition v_ (x : F) : Z := proj1_sig x.
Lemma iv (x : F) : i_ (v_ x) = x. Proof. apply to_zp_val. Qed.
Lemma vi z : v_ (i_ z) = z mod p. Proof. reflexivity. Qed.
Lemma vrange (x : F) : 0 <= v_ x < p. Proof. apply val_range. pose proof p_pos. lia. Qed.
Lemma ieq a b : a mod p = b mod p -> i_ a = i_ b. Proof. apply to_zp_mod. Qed.
Lemma imul a b : i_ (a * b) = mul (i_ a) (i_ b). Proof. apply to_zp_mul. Qed.
Lemma iadd a b : i_ (a + b) = add (i_ a) (i_ b). Proof. apply to_zp_add. Qed.
Lemma iopp a : i_ (- a) = opp (i_ a). Proof. apply to_zp_opp. Qed.
Lemma veq (x y : F) : v_ x = v_ y -> x = y. Proof. apply zp_eq. Qed.
Lemma ring_F : ring_theory (@zero F) one add mul sub opp eq. Proof. exact (zp_ring p). Qed.
Add Ring Fring : ring_F.
Lemma vmul (x y : F) : v_ (mul x y) = v_ x * v_ y mod p. Proof. reflexivity. Qed.
Lemma zero_div (x : F) : x = zero <-> (p | v_ x).
Proof.
  pose proof (vrange x) as H. split; [intros ->; exists 0; reflexivity|]. intros D. apply veq. change (v_ zero) with (0 mod p). rewrite Z.mod_0_l by lia.
  apply Z.mod_divide in D; [|lia]. rewrite Z.mod_small in D by lia. exact D.
Qed.
Lemma fp_integral : integral F.
Proof.
  intros a b E. assert (D : (p | v_ a * v_ b)).
  { apply Z.mod_divide; [pose proof p_pos; lia|]. rewrite <- vmul, E. apply Z.mod_0_l. pose proof p_pos. lia. }
  destruct (prime_mult p Pp _ _ D) as [D1|D1]; [left|right]; now apply zero_div.
Qed.
Lemma fp_dec (a b : F) : {a = b} + {a <> b}. Proof. apply zp_dec. Qed.
Definition half : Z := (p - 1) / 2.
Lemma half_ok : p - 1 = 2 * half /\ 0 < half /\ half = 2 * ((p + 1) / 4) - 1 /\ 0 < (p + 1) / 4.
Proof. unfold half. pose proof p_pos. pose proof (Z.div_mod p 4 ltac:(lia)). pose proof (Z.div_mod (p - 1) 2 ltac:(lia)).
  pose proof (Z.mod_pos_bound (p - 1) 2 ltac:(lia)). pose proof (Z.div_mod (p + 1) 4 ltac:(lia)). pose proof (Z.mod_pos_bound (p + 1) 4 ltac:(lia)). lia. Qed.
Definition euler (x : F) : F := i_ (v_ x ^ half).
Lemma euler_mul x y : euler (mul x y) = mul (euler x) (euler y).
Proof.
  unfold euler. rewrite <- imul. apply ieq. rewrite vmul. rewrite <- Z.pow_mul_l. apply pow_mod. pose proof p_pos. lia.
Qed.
Lemma euler_square x : x <> zero -> mul (euler x) (euler x) = one.
Proof.
  intros N. unfold euler. rewrite <- imul. rewrite <- Z.pow_add_r by (pose proof half_ok; lia). replace (half + half) with (p - 1) by (pose proof half_ok; lia).
  change one with (i_ 1). apply ieq. rewrite (Z.mod_small 1) by (pose proof p_pos; lia). apply fermat_unit; [exact Pp|]. now rewrite <- zero_div.
Qed.
Lemma euler_values x : x <> zero -> euler x = one \/ euler x = opp one.
Proof.
  intros N. pose proof (euler_square x N) as E. assert (M : mul (sub (euler x) one) (add (euler x) one) = zero).
  { transitivity (sub (mul (euler x) (euler x)) one); [ring|]. rewrite E. ring. }
  destruct (fp_integral _ _ M) as [H|H]; [left|right].
  - transitivity (add (sub (euler x) one) one); [ring|]. rewrite H. ring.
  - transitivity (sub (add (euler x) one) one); [ring|]. rewrite H. ring.
Qed.
Lemma euler_one x : euler x = one -> square x.
Proof.
  intros E. exists (i_ (v_ x ^ ((p + 1) / 4))). rewrite <- imul, <- Z.pow_add_r by (pose proof half_ok; lia).
  replace ((p + 1) / 4 + (p + 1) / 4) with (half + 1) by (pose proof half_ok; lia). rewrite Z.pow_add_r, imul by (pose proof half_ok; lia).
  fold (euler x). rewrite E, Z.pow_1_r, iv. ring.
Qed.
Lemma one_not_opp : @one F <> opp one.
Proof.
  intros E. change (i_ 1 = opp (i_ 1)) in E. rewrite <- iopp in E. apply (f_equal v_) in E. rewrite !vi in E. pose proof p_pos.
  rewrite (Z.mod_small 1) in E by lia. assert (E2 : (-1) mod p = p - 1) by (symmetry; apply (Z.mod_unique _ _ (-1)); lia). change (- (1)) with (-1) in E. rewrite E2 in E. lia.
Qed.
Lemma one_not_zero : @one F <> zero.
Proof. intros E. change (i_ 1 = i_ 0) in E. apply (f_equal v_) in E. rewrite !vi in E. pose proof p_pos. rewrite (Z.mod_small 1), Z.mod_0_l in E by lia. lia. Qed.
Lemma euler_opp x : euler x = opp one -> ~ square x.
Proof.
  intros E [y <-]. rewrite euler_mul in E. destruct (fp_dec y zero) as [->|N].
  - assert (Z0 : euler zero = zero). { unfold euler. change (v_ zero) with (0 mod p). rewrite Z.mod_0_l, Z.pow_0_l by (pose proof p_pos; pose proof half_ok; lia). reflexivity. }
    rewrite Z0 in E. apply one_not_zero. transitivity (opp (@opp F one)); [ring|]. rewrite <- E. ring.
  - rewrite euler_square in E by exact N. now apply one_not_opp.
Qed.
Lemma zero_square {R : ring} : is_ring R -> @square R zero.
Proof. intros H. exists zero. destruct H. rewrite <- (Radd_0_l (mul zero zero)). rewrite <- (Ropp_def (mul zero zero)) at 1.
  rewrite (Radd_comm (mul zero zero) (opp _)), <- Radd_assoc. rewrite <- Rdistr_l, Radd_0_l, Radd_comm. apply Ropp_def. Qed.
Lemma nonsquare_euler x : ~ square x -> euler x = opp one.
Proof.
  intros N. destruct (fp_dec x zero) as [->|N0]; [destruct N; apply zero_square, (zp_ring p)|].
  destruct (euler_values x N0) as [E|E]; [destruct N; now apply euler_one|exact E].
Qed.
Lemma fp_index_two : index_two F.
Proof.
  intros a b Ha Hb. apply euler_one. rewrite euler_mul, (nonsquare_euler a Ha), (nonsquare_euler b Hb). ring.
Qed.
Lemma fp_square_dec : square_decidable F.
Proof.
  intros x. destruct (fp_dec x zero) as [->|N0]; [left; apply zero_square, (zp_ring p)|].
  destruct (euler_values x N0) as [E|E]; [left; now apply euler_one|right; now apply euler_opp].
Qed.
Lemma nonsquare_compute z : powz z p half = p - 1 -> ~ square (i_ z).
Proof.
  intros H. apply euler_opp. unfold euler. change (@one F) with (i_ 1). rewrite <- iopp. apply ieq. rewrite vi. rewrite pow_mod by (pose proof p_pos; lia).
  rewrite <- powz_ok by (pose proof half_ok; lia). rewrite H. apply (Z.mod_unique _ _ (-1)); pose proof p_pos; lia.
Qed.
Lemma minus_one_nonsquare : ~ square (@opp F one).
Proof.
  apply euler_opp. unfold euler. change (@one F) with (i_ 1). rewrite <- iopp. rewrite vi. apply ieq. rewrite pow_mod by (pose proof p_pos; lia).
  pose proof half_ok as H. replace half with (2 * ((p + 1) / 4 - 1) + 1) by lia. rewrite Z.pow_add_r, Z.pow_mul_r by lia. change ((-1) ^ 2) with 1.
  rewrite Z.pow_1_l by lia. reflexivity.
Qed.
Definition inv_ (x : F) : F := i_ (v_ x ^ (p - 2)).
Lemma inv_ok : inverse_of_field inv_.
Proof.
  split.
  - unfold inv_. change (v_ zero) with (0 mod p). rewrite Z.mod_0_l, Z.pow_0_l by (pose proof p_pos; lia). reflexivity.
  - intros x N. unfold inv_. rewrite <- (iv x) at 1. rewrite <- imul, <- Z.pow_succ_r by (pose proof p_pos; lia). change one with (i_ 1). apply ieq.
    rewrite (Z.mod_small 1) by (pose proof p_pos; lia). replace (Z.succ (p - 2)) with (p - 1) by lia. apply fermat_unit; [exact Pp|]. now rewrite <- zero_div.
Qed.
Lemma two_not_zero : @add F one one <> zero.
Proof. intros E. change (add (i_ 1) (i_ 1) = i_ 0) in E. rewrite <- iadd in E. apply (f_equal v_) in E. rewrite !vi in E. pose proof p_pos. rewrite (Z.mod_small (1 + 1)), Z.mod_0_l in E by lia. lia. Qed.

(** ** The extension *)
Notation K := (complex F).
Theorem complex_ring : is_ring K.
Proof.
  constructor; intros; repeat match goal with x : car K |- _ => destruct x end; cbn [complex car zero one add mul sub opp fst snd]; f_equal; ring.
Qed.
Lemma ring_K : ring_theory (@zero K) one add mul sub opp eq. Proof. exact complex_ring. Qed.
Definition norm (a : K) : F := add (mul (fst a) (fst a)) (mul (snd a) (snd a)).
Lemma norm_mul a b : norm (mul a b) = mul (norm a) (norm b).
Proof. destruct a, b. unfold norm. cbn [complex car mul fst snd]. ring. Qed.
Lemma square_mul_self (x : F) : square (mul x x). Proof. now exists x. Qed.
Lemma square_opp_zero (x : F) : square x -> square (opp x) -> x = zero.
Proof.
  intros [y <-] [z E]. destruct (fp_dec y zero) as [->|N]; [ring|]. exfalso. apply minus_one_nonsquare. exists (mul z (inv_ y)).
  destruct inv_ok as [_ I]. transitivity (mul (mul z z) (mul (inv_ y) (inv_ y))); [ring|]. rewrite E.
  transitivity (opp (mul (mul y (inv_ y)) (mul y (inv_ y)))); [ring|]. rewrite I by exact N. ring.
Qed.
Lemma norm_zero a : norm a = zero -> a = zero.
Proof.
  destruct a as [a b]. unfold norm. cbn [fst snd]. intros E.
  assert (H : mul a a = zero). { apply square_opp_zero; [apply square_mul_self|]. exists b. transitivity (sub (add (mul a a) (mul b b)) (mul a a)); [ring|]. rewrite E. ring. }
  assert (H2 : mul b b = zero). { transitivity (sub (add (mul a a) (mul b b)) (mul a a)); [ring|]. rewrite E, H. ring. }
  destruct (fp_integral _ _ H) as [-> | ->]; destruct (fp_integral _ _ H2) as [-> | ->]; reflexivity.
Qed.
Lemma norm_nonzero a : a <> zero -> norm a <> zero. Proof. intros N E. apply N. now apply norm_zero. Qed.
Lemma fp2_dec (a b : K) : {a = b} + {a <> b}.
Proof. destruct a as [a a'], b as [b b']. destruct (fp_dec a b) as [->|N]; [destruct (fp_dec a' b') as [->|N]; [left; reflexivity|]|]; right; intros E; apply N; now injection E. Qed.
Lemma fp2_integral : integral K.
Proof.
  intros a b E. assert (N : mul (norm a) (norm b) = zero). { rewrite <- norm_mul, E. unfold norm. cbn [complex zero fst snd]. ring. }
  destruct (fp_integral _ _ N) as [H|H]; [left|right]; now apply norm_zero.
Qed.
Lemma square_norm a : square a -> square (norm a).
Proof. intros [y <-]. rewrite norm_mul. apply square_mul_self. Qed.
Lemma norm_square a : square (norm a) -> square a.
Proof.
  destruct a as [a b]. unfold norm. cbn [fst snd]. intros [n E]. destruct inv_ok as [_ I].
  destruct (fp_dec b zero) as [->|Nb].
  - destruct (fp_square_dec a) as [[s Es]|N]; [rewrite <- Es; exists (s, zero); cbn [complex mul fst snd]; f_equal; ring|].
    destruct (fp_index_two a (opp one) N minus_one_nonsquare) as [s Es]. exists (zero, s). cbn [complex mul fst snd]. f_equal; [|ring].
    transitivity (opp (mul s s)); [ring|]. rewrite Es. ring.
  - set (h := inv_ (add one one)). assert (H2 : mul (add one one) h = one) by (apply I, two_not_zero).
    set (d := mul (add a n) h). set (d' := mul (sub a n) h).
    assert (Ed : mul d d' = opp (mul (mul b h) (mul b h))).
    { unfold d, d'. transitivity (mul (mul h h) (sub (mul a a) (mul n n))); [ring|]. rewrite E. ring. }
    assert (Es : add d d' = a). { unfold d, d'. transitivity (mul (mul (add one one) h) a); [ring|]. rewrite H2. ring. }
    assert (Nh : h <> zero). { intros Eh. apply one_not_zero. rewrite <- H2, Eh. ring. }
    assert (Nbh : mul b h <> zero). { intros Eb. destruct (fp_integral _ _ Eb); auto. }
    assert (Ndd : mul d d' <> zero).
    { rewrite Ed. intros E0. apply Nbh. destruct (fp_integral (mul b h) (mul b h)) as [Z0|Z0]; [|exact Z0|exact Z0].
      transitivity (opp (opp (mul (mul b h) (mul b h)))); [ring|]. rewrite E0. ring. }
    assert (G : forall e e' : F, square e -> mul e e' = opp (mul (mul b h) (mul b h)) -> add e e' = a -> @square K (a, b)).
    { intros e e' [x <-] P S. assert (Nx : x <> zero). { intros ->. apply Ndd. rewrite Ed, <- P. ring. }
      set (y := mul (mul b h) (inv_ x)). pose proof (I x Nx) as Ix. exists (x, y). cbn [complex mul fst snd].
      assert (Y2 : mul y y = opp e').
      { unfold y. transitivity (mul (mul (mul b h) (mul b h)) (mul (inv_ x) (inv_ x))); [ring|].
        replace (mul (mul b h) (mul b h)) with (opp (mul (mul x x) e')) by (rewrite P; ring).
        transitivity (opp (mul (mul (mul x (inv_ x)) (mul x (inv_ x))) e')); [ring|]. rewrite Ix. ring. }
      f_equal; [rewrite Y2, <- S; ring|]. unfold y. transitivity (mul (mul (mul (add one one) h) (mul x (inv_ x))) b); [ring|]. rewrite H2, Ix. ring. }
    destruct (fp_square_dec d) as [Sd|Sd]; [apply (G d d'); auto|]. destruct (fp_square_dec d') as [Sd'|Sd'].
    + apply (G d' d); auto; [rewrite <- Ed; ring|rewrite <- Es; ring].
    + exfalso. apply Nbh. pose proof (fp_index_two d d' Sd Sd') as Q. rewrite Ed in Q.
      pose proof (square_opp_zero _ (square_mul_self (mul b h)) Q) as Z0. destruct (fp_integral _ _ Z0); auto.
Qed.
Lemma fp2_index_two : index_two K.
Proof.
  intros a b Ha Hb. apply norm_square. rewrite norm_mul. apply fp_index_two; intros S; [apply Ha|apply Hb]; now apply norm_square.
Qed.
Lemma fp2_square_dec : square_decidable K.
Proof. intros a. destruct (fp_square_dec (norm a)) as [S|S]; [left; now apply norm_square|right; intros Q; now apply S, square_norm]. Qed.
Definition inv2 (a : K) : K := (mul (fst a) (inv_ (norm a)), opp (mul (snd a) (inv_ (norm a)))).
Lemma inv2_ok : inverse_of_field inv2.
Proof.
  destruct inv_ok as [I0 I]. split.
  - unfold inv2. cbn [complex zero fst snd]. f_equal; ring.
  - intros [a b] N. pose proof (I _ (norm_nonzero _ N)) as H. unfold inv2. unfold norm in *. cbn [complex mul one fst snd] in *. f_equal; [rewrite <- H; ring|ring].
Qed.

(** ** Functions that meet the contracts *)
Definition root_ (x : F) : F := i_ (v_ x ^ ((p + 1) / 4)).
Lemma root_ok : root_of_squares root_.
Proof.
  intros x S. destruct (fp_dec x zero) as [->|N].
  - unfold root_. change (v_ zero) with (0 mod p). rewrite Z.mod_0_l, Z.pow_0_l by (pose proof p_pos; pose proof half_ok; lia). change (i_ 0) with (@zero F). ring.
  - assert (E : euler x = one) by (destruct (euler_values x N) as [E|E]; [exact E|]; now apply euler_opp in E).
    unfold root_. rewrite <- imul, <- Z.pow_add_r by (pose proof half_ok; lia).
    replace ((p + 1) / 4 + (p + 1) / 4) with (half + 1) by (pose proof half_ok; lia). rewrite Z.pow_add_r, imul by (pose proof half_ok; lia).
    fold (euler x). rewrite E, Z.pow_1_r, iv. ring.
Qed.
Definition issq_ (x : F) : bool := if fp_dec (mul (root_ x) (root_ x)) x then true else false.
Lemma issq_ok : decides_square issq_.
Proof.
  intros x. unfold issq_. destruct (fp_dec (mul (root_ x) (root_ x)) x) as [E|E].
  - split; [intros _; now exists (root_ x)|reflexivity].
  - split; [discriminate|]. intros S. destruct E. now apply root_ok.
Qed.
Definition iszero_ (x : F) : bool := if fp_dec x zero then true else false.
Lemma iszero_ok : decides_zero iszero_. Proof. intros x. unfold iszero_. destruct (fp_dec x zero); split; congruence. Qed.
Definition cand (b e : F) : K := (root_ e, mul (mul b (inv_ (add one one))) (inv_ (root_ e))).
Definition cands (a : K) : list K :=
  let n := root_ (norm a) in let h := inv_ (add one one) in
  [(root_ (fst a), zero); (zero, root_ (opp (fst a))); cand (snd a) (mul (add (fst a) n) h); cand (snd a) (mul (sub (fst a) n) h)].
Definition root2 (a : K) : K :=
  match find (fun c : K => if fp2_dec (mul c c) a then true else false) (cands a) with Some c => c | None => zero end.
Lemma cands_ok a : square a -> exists c, In c (cands a) /\ mul c c = a.
Proof.
  intros Sq. pose proof (square_norm a Sq) as [n0 E0]. pose proof (root_ok (norm a) (ex_intro _ n0 E0)) as E. unfold cands. set (n := root_ (norm a)) in *. clear n0 E0 Sq.
  destruct a as [a b]. unfold norm in E. cbn [fst snd] in *. destruct inv_ok as [_ I].
  destruct (fp_dec b zero) as [->|Nb].
  - destruct (fp_square_dec a) as [S|N].
    + exists (root_ a, zero). split; [left; reflexivity|]. cbn [complex mul fst snd]. f_equal; [|ring]. rewrite (root_ok a S). ring.
    + assert (S : square (opp a)). { destruct (fp_index_two a (opp one) N minus_one_nonsquare) as [s Es]. exists s. rewrite Es. ring. }
      exists (zero, root_ (opp a)). split; [right; left; reflexivity|]. cbn [complex mul fst snd]. f_equal; [|ring]. rewrite (root_ok _ S). ring.
  - set (h := inv_ (add one one)) in *. assert (H2 : mul (add one one) h = one) by (apply I, two_not_zero).
    set (d := mul (add a n) h) in *. set (d' := mul (sub a n) h) in *.
    assert (Ed : mul d d' = opp (mul (mul b h) (mul b h))).
    { unfold d, d'. transitivity (mul (mul h h) (sub (mul a a) (mul n n))); [ring|]. rewrite E. ring. }
    assert (Es : add d d' = a). { unfold d, d'. transitivity (mul (mul (add one one) h) a); [ring|]. rewrite H2. ring. }
    assert (Nh : h <> zero). { intros Eh. apply one_not_zero. rewrite <- H2, Eh. ring. }
    assert (Nbh : mul b h <> zero). { intros Eb. destruct (fp_integral _ _ Eb); auto. }
    assert (Ndd : mul d d' <> zero).
    { rewrite Ed. intros E0. apply Nbh. destruct (fp_integral (mul b h) (mul b h)) as [Z0|Z0]; [|exact Z0|exact Z0].
      transitivity (opp (opp (mul (mul b h) (mul b h)))); [ring|]. rewrite E0. ring. }
    assert (G : forall e e' : F, square e -> mul e e' = opp (mul (mul b h) (mul b h)) -> add e e' = a -> mul (cand b e) (cand b e) = ((a, b) : K)).
    { intros e e' S P Sm. pose proof (root_ok e S) as Ex. unfold cand. fold h. set (x := root_ e) in *.
      assert (Nx : x <> zero). { intros Ez. apply Ndd. rewrite Ed, <- P, <- Ex, Ez. ring. }
      pose proof (I x Nx) as Ix. set (y := mul (mul b h) (inv_ x)). cbn [complex mul fst snd].
      assert (Y2 : mul y y = opp e').
      { unfold y. transitivity (mul (mul (mul b h) (mul b h)) (mul (inv_ x) (inv_ x))); [ring|].
        replace (mul (mul b h) (mul b h)) with (opp (mul (mul x x) e')) by (rewrite Ex, P; ring).
        transitivity (opp (mul (mul (mul x (inv_ x)) (mul x (inv_ x))) e')); [ring|]. rewrite Ix. ring. }
      f_equal; [rewrite Y2, Ex, <- Sm; ring|]. unfold y. transitivity (mul (mul (mul (add one one) h) (mul x (inv_ x))) b); [ring|]. rewrite H2, Ix. ring. }
    destruct (fp_square_dec d) as [Sd|Sd]; [exists (cand b d); split; [right; right; left; reflexivity|apply (G d d'); auto]|]. destruct (fp_square_dec d') as [Sd'|Sd'].
    + exists (cand b d'). split; [do 3 right; left; reflexivity|]. apply (G d' d); auto; [rewrite <- Ed; ring|rewrite <- Es; ring].
    + exfalso. apply Nbh. pose proof (fp_index_two d d' Sd Sd') as Q. rewrite Ed in Q.
      pose proof (square_opp_zero _ (square_mul_self (mul b h)) Q) as Z0. destruct (fp_integral _ _ Z0); auto.
Qed.
Lemma root2_ok : root_of_squares root2.
Proof.
  intros a S. unfold root2. destruct (cands_ok a S) as (c & Hc & Ec). destruct (find _ (cands a)) as [x|] eqn:Fd.
  - apply find_some in Fd. destruct Fd as [_ Fd]. destruct (fp2_dec (mul x x) a); [assumption|discriminate].
  - exfalso. pose proof (find_none _ _ Fd c Hc) as N. cbn beta in N. destruct (fp2_dec (mul c c) a); [discriminate|contradiction].
Qed.
Definition issq2 (a : K) : bool := if fp2_dec (mul (root2 a) (root2 a)) a then true else false.
Lemma issq2_ok : decides_square issq2.
Proof.
  intros x. unfold issq2. destruct (fp2_dec (mul (root2 x) (root2 x)) x) as [E|E].
  - split; [intros _; now exists (root2 x)|reflexivity].
  - split; [discriminate|]. intros S. destruct E. now apply root2_ok.
Qed.
Definition iszero2 (x : K) : bool := if fp2_dec x zero then true else false.
Lemma iszero2_ok : decides_zero iszero2. Proof. intros x. unfold iszero2. destruct (fp2_dec x zero); split; congruence. Qed.
End P.
