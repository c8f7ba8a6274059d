(** The portable permutation computes Keccak-f[1600]. *)
From Coq Require Import NArith Arith List Bool Lia ZifyBool ZifyNat ZifyN ZArith.
From Verif Require Import SpecStream LStream MPack LInj MAcc MConstr SpecKeccak MKeccak.
Import ListNotations.
Ltac Zify.zify_post_hook ::= Z.div_mod_to_equations.

(** ** Words of [w] bits *)
Lemma fits_bits w x : (forall j, w <= j -> N.testbit x (N.of_nat j) = false) -> fits w x.
Proof.
  intros H. unfold fits. destruct (N.eq_dec x 0) as [->|Hx].
  { apply N.neq_0_lt_0, N.pow_nonzero. lia. }
  destruct (N.lt_ge_cases x (2 ^ N.of_nat w)) as [L|L]; auto. exfalso.
  assert (N.of_nat w <= N.log2 x)%N.
  { rewrite <- (N.log2_pow2 (N.of_nat w)) by lia. now apply N.log2_le_mono. }
  specialize (H (N.to_nat (N.log2 x))). rewrite Nnat.N2Nat.id, N.bit_log2 in H by auto.
  assert (w <= N.to_nat (N.log2 x)) by lia. intuition discriminate.
Qed.

Lemma fits_0 w : fits w 0.
Proof. unfold fits. apply N.neq_0_lt_0, N.pow_nonzero. lia. Qed.

Lemma fits_lxor w x y : fits w x -> fits w y -> fits w (N.lxor x y).
Proof.
  intros Hx Hy. apply fits_bits. intros j Hj. rewrite N.lxor_spec.
  now rewrite (testbit_high w x), (testbit_high w y).
Qed.

Lemma fits_land w x y : fits w y -> fits w (N.land x y).
Proof.
  intros Hy. apply fits_bits. intros j Hj. rewrite N.land_spec.
  rewrite (testbit_high w y) by auto. apply andb_false_r.
Qed.

Lemma fits_mod w x : fits w (x mod 2 ^ N.of_nat w).
Proof. unfold fits. apply N.mod_lt. apply N.pow_nonzero. lia. Qed.

Lemma fits_lor w x y : fits w x -> fits w y -> fits w (N.lor x y).
Proof.
  intros Hx Hy. apply fits_bits. intros j Hj. rewrite N.lor_spec.
  now rewrite (testbit_high w x), (testbit_high w y).
Qed.

Lemma fits_shiftr w x k : fits w x -> fits w (N.shiftr x k).
Proof.
  intros Hx. apply fits_bits. intros j Hj. rewrite N.shiftr_spec by lia.
  replace (N.of_nat j + k)%N with (N.of_nat (j + N.to_nat k)) by lia.
  apply (testbit_high w); auto. lia.
Qed.

Lemma fits_rotl w k x : fits w x -> fits w (rotl (N.of_nat w) k x).
Proof. intros. unfold rotl. apply fits_lor; [apply fits_mod|now apply fits_shiftr]. Qed.

Lemma fits_rotl64 k x : fits 64 x -> fits 64 (rotl 64 k x).
Proof. apply (fits_rotl 64). Qed.

Lemma testbit_rotl w k x z : fits w x -> (0 < N.to_nat k < w)%nat -> z < w ->
  N.testbit (rotl (N.of_nat w) k x) (N.of_nat z) = N.testbit x (N.of_nat ((z + (w - N.to_nat k)) mod w)).
Proof.
  intros Hx Hk Hz. unfold rotl. rewrite N.lor_spec, N.mod_pow2_bits_low, N.shiftr_spec by lia.
  destruct (lt_dec z (N.to_nat k)) as [L|L].
  - rewrite N.shiftl_spec_low by lia. cbn [orb].
    rewrite (Nat.mod_small (z + (w - N.to_nat k))) by lia. f_equal. lia.
  - rewrite N.shiftl_spec_high by lia.
    replace (N.of_nat z + (N.of_nat w - k))%N with (N.of_nat (z + (w - N.to_nat k))) by lia.
    rewrite (testbit_high w x) by (auto; lia). rewrite orb_false_r. f_equal.
    replace (z + (w - N.to_nat k)) with ((z - N.to_nat k) + 1 * w) by lia.
    rewrite Nat.mod_add, Nat.mod_small by lia. lia.
Qed.

Lemma testbit_rotl64 k x z : fits 64 x -> (0 < N.to_nat k < 64)%nat -> z < 64 ->
  N.testbit (rotl 64 k x) (N.of_nat z) = N.testbit x (N.of_nat ((z + (64 - N.to_nat k)) mod 64)).
Proof. apply (testbit_rotl 64). Qed.

Lemma testbit_not64 x z : z < 64 -> N.testbit (not64 x) (N.of_nat z) = negb (N.testbit x (N.of_nat z)).
Proof. intros. unfold not64. apply N.lnot_spec_low. lia. Qed.

Lemma fits_nth w st k : Forall (fits w) st -> fits w (nth k st 0%N).
Proof.
  intros H. destruct (lt_dec k (length st)).
  - apply Forall_nth; auto.
  - rewrite nth_overflow by lia. apply fits_0.
Qed.

(** ** Bits of the state *)
Lemma nth_stream e w ws i : 0 < w -> i < w * length ws ->
  nth i (stream e w ws) false = N.testbit (nth (i / w) ws 0%N) (N.of_nat (bitpos e w (i mod w))).
Proof.
  intros Hw. revert i; induction ws as [|o os IH]; intros i Hi; cbn [length] in Hi; [lia|].
  rewrite stream_cons. destruct (lt_dec i w).
  - rewrite app_nth1 by (rewrite word_stream_length; lia).
    rewrite nth_word_stream by lia. rewrite (Nat.div_small i w), (Nat.mod_small i w) by lia. reflexivity.
  - rewrite app_nth2 by (rewrite word_stream_length; lia). rewrite word_stream_length.
    rewrite IH by nia.
    assert (E : i = (i - w) + 1 * w) by lia.
    replace (i / w) with (S ((i - w) / w)).
    2:{ rewrite E at 2. rewrite Nat.div_add by lia. lia. }
    cbn [nth]. do 3 f_equal. rewrite E at 2. rewrite Nat.mod_add by lia. reflexivity.
Qed.

Lemma to_array_stream st x y z : length st = 25 -> x < 5 -> y < 5 -> z < 64 ->
  to_array (stream LOLB 64 st) x y z = N.testbit (nth (5 * y + x) st 0%N) (N.of_nat z).
Proof.
  intros L Hx Hy Hz. unfold to_array. rewrite nth_stream by lia.
  cbn [bitpos]. replace (64 * (5 * y + x) + z) with (z + (5 * y + x) * 64) by lia.
  rewrite Nat.div_add, Nat.mod_add, Nat.div_small, Nat.mod_small by lia. reflexivity.
Qed.

Lemma to_string_length A : length (to_string A) = 1600.
Proof. unfold to_string. now rewrite map_length, seq_length. Qed.

Lemma nth_to_string A i : i < 1600 -> nth i (to_string A) false = A ((i / 64) mod 5) (i / 320) (i mod 64).
Proof.
  intros Hi. unfold to_string.
  set (f := fun i => A ((i / 64) mod 5) (i / 320) (i mod 64)).
  rewrite nth_indep with (d' := f 0) by (rewrite map_length, seq_length; lia).
  rewrite map_nth, seq_nth by lia. reflexivity.
Qed.

Lemma keccak_round_fits st c : Forall (fits 64) st -> fits 64 c -> block_ok 64 25 (keccak_round st c).
Proof.
  intros Hst Hc. pose proof (fun k => fits_nth 64 st k Hst) as Hn.
  split; [reflexivity|]. unfold keccak_round. cbv zeta.
  repeat (apply Forall_cons; [repeat first [apply fits_lxor | apply fits_land | apply fits_rotl64 | apply Hn | exact Hc]|]).
  apply Forall_nil.
Qed.


(** One bit of a rotated lane after theta. *)
Lemma theta_rot_bits k a c1 c4 z : fits 64 a -> fits 64 c1 -> fits 64 c4 ->
  (0 < N.to_nat k < 64)%nat -> z < 64 ->
  let z' := (z + (64 - N.to_nat k)) mod 64 in
  N.testbit (rotl 64 k (N.lxor a (N.lxor (rotl 64 1 c1) c4))) (N.of_nat z) =
  xorb (N.testbit a (N.of_nat z'))
       (xorb (N.testbit c4 (N.of_nat z')) (N.testbit c1 (N.of_nat ((z' + 63) mod 64)))).
Proof.
  intros Ha H1 H4 Hk Hz z'.
  rewrite testbit_rotl64 by (auto using fits_lxor, fits_rotl64). fold z'.
  assert (z' < 64) by (apply Nat.mod_upper_bound; lia).
  rewrite !N.lxor_spec, testbit_rotl64 by (auto; cbn; lia).
  f_equal. apply xorb_comm.
Qed.

Lemma theta_bits a c1 c4 z : fits 64 c1 -> z < 64 ->
  N.testbit (N.lxor a (N.lxor (rotl 64 1 c1) c4)) (N.of_nat z) =
  xorb (N.testbit a (N.of_nat z))
       (xorb (N.testbit c4 (N.of_nat z)) (N.testbit c1 (N.of_nat ((z + 63) mod 64)))).
Proof.
  intros H1 Hz. rewrite !N.lxor_spec, testbit_rotl64 by (auto; cbn; lia). f_equal. apply xorb_comm.
Qed.

Lemma chi_bits a b c z : z < 64 ->
  N.testbit (N.lxor a (N.land (not64 b) c)) (N.of_nat z) =
  xorb (N.testbit a (N.of_nat z)) (andb (xorb (N.testbit b (N.of_nat z)) true) (N.testbit c (N.of_nat z))).
Proof. intros. now rewrite N.lxor_spec, N.land_spec, testbit_not64, xorb_true_r. Qed.

Section Round.
Context (st : list N) (L : length st = 25) (Hst : Forall (fits 64) st).
Let bit k z := N.testbit (nth k st 0%N) (N.of_nat z).

(** The rotated lanes B of the code, by position. *)
Definition bspec (x y z : nat) : bool := pi (rho (theta (to_array (stream LOLB 64 st)))) x y z.

Lemma theta_spec x y z : x < 5 -> y < 5 -> z < 64 ->
  theta (to_array (stream LOLB 64 st)) x y z =
  let c k z := xorb (xorb (xorb (xorb (bit k z) (bit (5 + k) z)) (bit (10 + k) z)) (bit (15 + k) z)) (bit (20 + k) z) in
  xorb (bit (5 * y + x) z) (xorb (c ((x + 4) mod 5) z) (c ((x + 1) mod 5) ((z + 63) mod 64))).
Proof.
  intros Hx Hy Hz. unfold theta, theta_D, col, bit.
  assert ((z + 63) mod 64 < 64) by (apply Nat.mod_upper_bound; lia).
  assert ((x + 4) mod 5 < 5) by (apply Nat.mod_upper_bound; lia).
  assert ((x + 1) mod 5 < 5) by (apply Nat.mod_upper_bound; lia).
  rewrite !to_array_stream by (auto; lia). reflexivity.
Qed.
End Round.

Ltac closed5 :=
  repeat match goal with
  | |- context [?a mod 5] => let v := eval vm_compute in (a mod 5) in change (a mod 5) with v
  | |- context [?a / 5] => let v := eval vm_compute in (a / 5) in change (a / 5) with v
  | |- context [rho_offset ?a ?b] => let v := eval vm_compute in (rho_offset a b) in change (rho_offset a b) with v
  | |- context [N.to_nat ?k] => let v := eval vm_compute in (N.to_nat k) in change (N.to_nat k) with v
  end.

Lemma round_bits st c ir q z : block_ok 64 25 st ->
  (forall z, z < 64 -> N.testbit c (N.of_nat z) = RC ir z) -> q < 25 -> z < 64 ->
  N.testbit (nth q (keccak_round st c) 0%N) (N.of_nat z) =
  iota ir (chi (pi (rho (theta (to_array (stream LOLB 64 st)))))) (q mod 5) (q / 5) z.
Proof.
  intros [L Hst] HRC Hq Hz. pose proof (fun k => fits_nth 64 st k Hst) as Hn.
  assert (Hrot : forall z k, (z + k) mod 64 < 64) by (intros; apply Nat.mod_upper_bound; lia).
  specialize (HRC z Hz).
  assert (TS := theta_spec st L). cbv zeta beta in TS.
  assert (Z0 : (z + (64 - rho_offset 0 0)) mod 64 = z).
  { change (64 - rho_offset 0 0) with 64. rewrite <- (Nat.mul_1_l 64) at 1. rewrite Nat.mod_add by lia.
    now apply Nat.mod_small. }
  assert (HP : forall x y, x < 5 -> y < 5 -> rho (theta (to_array (stream LOLB 64 st))) x y z =
     theta (to_array (stream LOLB 64 st)) x y ((z + (64 - rho_offset x y)) mod 64)) by reflexivity.
  unfold keccak_round. cbv zeta.
  do 25 (destruct q as [|q]; [
    cbn [nth]; rewrite ?(N.lxor_spec _ c), ?HRC, chi_bits by auto;
    rewrite ?theta_rot_bits, ?theta_bits by
      (first [ exact Hz | cbn; lia | repeat first [apply fits_lxor | apply Hn] ]);
    rewrite ?N.lxor_spec;
    unfold iota, chi, pi; closed5;
    cbn [Nat.eqb andb]; rewrite !HP by lia;
    rewrite ?Z0, !TS by (first [apply Hrot | exact Hz | lia]);
    closed5; reflexivity |]).
  lia.
Qed.
