(** Fixed-width words: addition, complement, rotation, for any width. *)
From Coq Require Import NArith Arith List Bool Lia ZifyBool ZifyNat ZifyN ZArith.
From Verif Require Import SpecStream LStream MPack LInj.
Import ListNotations.
Ltac Zify.zify_post_hook ::= Z.div_mod_to_equations.
Local Open Scope N_scope.

Section W.
Context (w : nat).
Notation W := (2 ^ N.of_nat w).

Lemma W_pos : W <> 0.
Proof. apply N.pow_nonzero. lia. Qed.

Lemma mod_fits x : fits w (x mod W).
Proof. apply N.mod_lt, W_pos. Qed.

Lemma fits_testbit x i : fits w x -> N.of_nat w <= i -> N.testbit x i = false.
Proof. intros Hx Hi. replace i with (N.of_nat (N.to_nat i)) by lia. apply (testbit_high w); auto. lia. Qed.

Lemma bits_fits x : (forall i, N.of_nat w <= i -> N.testbit x i = false) -> fits w x.
Proof.
  intros H. unfold fits. replace x with (x mod W); [apply N.mod_lt, W_pos|].
  apply N.bits_inj. intros i. destruct (N.ltb_spec i (N.of_nat w)).
  - now rewrite N.mod_pow2_bits_low.
  - rewrite N.mod_pow2_bits_high by lia. symmetry. auto.
Qed.

Lemma land_fits x y : fits w x -> fits w (N.land x y).
Proof. intros Hx. apply bits_fits. intros. now rewrite N.land_spec, (fits_testbit x). Qed.
Lemma lor_fits x y : fits w x -> fits w y -> fits w (N.lor x y).
Proof. intros Hx Hy. apply bits_fits. intros. now rewrite N.lor_spec, (fits_testbit x), (fits_testbit y). Qed.
Lemma lxor_fits x y : fits w x -> fits w y -> fits w (N.lxor x y).
Proof. intros Hx Hy. apply bits_fits. intros. now rewrite N.lxor_spec, (fits_testbit x), (fits_testbit y). Qed.
Lemma shiftr_fits x k : fits w x -> fits w (N.shiftr x k).
Proof. intros Hx. apply bits_fits. intros. rewrite N.shiftr_spec by lia. apply fits_testbit; auto. lia. Qed.

(** Rotation left by [k]. *)
Definition rotl_w (k x : N) : N := N.lor (N.shiftl x k mod W) (N.shiftr x (N.of_nat w - k)).

Lemma rotl_fits k x : fits w x -> fits w (rotl_w k x).
Proof. intros Hx. apply lor_fits; [apply mod_fits|now apply shiftr_fits]. Qed.

Lemma rotl_testbit k x i : fits w x -> k <= N.of_nat w -> i < N.of_nat w ->
  N.testbit (rotl_w k x) i = N.testbit x (if i <? k then i + (N.of_nat w - k) else i - k).
Proof.
  intros Hx Hk Hi. unfold rotl_w. rewrite N.lor_spec, N.shiftr_spec by lia.
  rewrite N.mod_pow2_bits_low by lia. destruct (N.ltb_spec i k).
  - now rewrite N.shiftl_spec_low by lia.
  - rewrite N.shiftl_spec_high by lia. rewrite (fits_testbit x (_ + _)) by (auto; lia). apply orb_false_r.
Qed.

Lemma rotl_arith k x : fits w x -> k <= N.of_nat w ->
  rotl_w k x = (x * 2 ^ k) mod W + x / 2 ^ (N.of_nat w - k).
Proof.
  intros Hx Hk. unfold rotl_w.
  assert (D : N.land (N.shiftl x k mod W) (N.shiftr x (N.of_nat w - k)) = 0).
  { apply N.bits_inj. intros i. rewrite N.land_spec, N.bits_0, N.shiftr_spec by lia.
    destruct (N.ltb_spec i k).
    - destruct (N.ltb_spec i (N.of_nat w)).
      + rewrite N.mod_pow2_bits_low by lia. now rewrite N.shiftl_spec_low by lia.
      + now rewrite N.mod_pow2_bits_high by lia.
    - rewrite (fits_testbit x (_ + _)) by (auto; lia). apply andb_false_r. }
  rewrite N.shiftl_mul_pow2, N.shiftr_div_pow2 in *.
  rewrite <- N.lxor_lor by exact D. symmetry. apply N.add_nocarry_lxor. exact D.
Qed.

Lemma rotl_rotl k x : fits w x -> k <= N.of_nat w -> rotl_w (N.of_nat w - k) (rotl_w k x) = x.
Proof.
  intros Hx Hk. apply (testbit_ext w); auto.
  - apply rotl_fits. now apply rotl_fits.
  - intros j Hj. rewrite rotl_testbit by (try lia; now apply rotl_fits).
    destruct (N.ltb_spec (N.of_nat j) (N.of_nat w - k)).
    + rewrite rotl_testbit by (auto; lia).
      destruct (N.ltb_spec (N.of_nat j + (N.of_nat w - (N.of_nat w - k))) k); [lia|]. f_equal. lia.
    + rewrite rotl_testbit by (auto; lia).
      destruct (N.ltb_spec (N.of_nat j - (N.of_nat w - k)) k); [|lia]. f_equal. lia.
Qed.

Lemma rotl_rotl' k x : fits w x -> k <= N.of_nat w -> rotl_w k (rotl_w (N.of_nat w - k) x) = x.
Proof. intros Hx Hk. replace k with (N.of_nat w - (N.of_nat w - k)) at 1 by lia. apply rotl_rotl; auto. lia. Qed.

(** Addition and subtraction. *)
Definition plus (x y : N) : N := (x + y) mod W.
Definition minus (x y : N) : N := (x + (W - y mod W)) mod W.

Lemma minus_plus x y : fits w x -> minus (plus x y) y = x.
Proof.
  intros Hx. unfold plus, minus, fits in *. pose proof W_pos as P. pose proof (N.mod_lt y W P) as L.
  rewrite N.add_mod_idemp_l by exact P.
  rewrite <- N.add_assoc, (N.add_comm y), N.add_assoc. rewrite <- N.add_mod_idemp_r by exact P.
  replace (x + (W - y mod W) + y mod W) with (x + 1 * W).
  - rewrite N.mod_add by exact P. apply N.mod_small. exact Hx.
  - generalize dependent (y mod W). intros z L. revert L. generalize W. lia.
Qed.

Lemma plus_minus x y : fits w x -> plus (minus x y) y = x.
Proof.
  intros Hx. unfold plus, minus, fits in *. pose proof W_pos as P. pose proof (N.mod_lt y W P) as L.
  rewrite N.add_mod_idemp_l by exact P. rewrite <- N.add_mod_idemp_r by exact P.
  replace (x + (W - y mod W) + y mod W) with (x + 1 * W).
  - rewrite N.mod_add by exact P. apply N.mod_small. exact Hx.
  - generalize dependent (y mod W). intros z L. revert L. generalize W. lia.
Qed.
End W.
