(** The orders of the fields are prime.  Certificates found by tools/pocklington.py. *)
From Coq Require Import ZArith Znumtheory Lia List Bool.
From Verif Require Import LFermat SpecPoseidon.
Import ListNotations.
Local Open Scope Z_scope.

(** Small primes: no divisor up to the square root. *)
Fixpoint no_divisor (k : nat) (d n : Z) : bool :=
  match k with
  | O => n <? d * d
  | S k' => (n <? d * d) || (negb (n mod d =? 0) && no_divisor k' (d + 1) n)
  end.
Lemma no_divisor_ok k : forall d n, 2 <= d -> 1 < n -> (forall m, 1 < m < d -> ~ (m | n)) -> no_divisor k d n = true -> prime n.
Proof.
  assert (B : forall d n, 2 <= d -> 1 < n -> (forall m, 1 < m < d -> ~ (m | n)) -> (n <? d * d) = true -> prime n).
  { intros d n Hd Hn H E. apply Z.ltb_lt in E. destruct (prime_dec n) as [P|P]; [exact P|].
    destruct (not_prime_divide n Hn P) as (m & Hm & k' & Ek). exfalso.
    destruct (Z_lt_le_dec m d) as [Hl|Hl]; [apply (H m); [now split|exists k'; assumption]|].
    assert (Hk : 1 < k' < d) by nia. apply (H k' Hk). exists m. rewrite Ek. ring. }
  induction k as [|k IH]; intros d n Hd Hn H E; cbn [no_divisor] in E; [now apply (B d n)|].
  apply Bool.orb_true_iff in E. destruct E as [E|E]; [now apply (B d n)|]. apply andb_prop in E. destruct E as [E1 E2].
  apply (IH (d + 1) n); auto; [apply Z.le_le_succ_r; exact Hd|]. intros m Hm D. destruct (Z.eq_dec m d) as [->|Hne].
  - apply Bool.negb_true_iff, Z.eqb_neq in E1. apply E1, Z.mod_divide; [|exact D]. apply Z.neq_sym, Z.lt_neq, (Z.lt_le_trans 0 2); [reflexivity|exact Hd].
  - apply (H m); [|exact D]. destruct Hm as [Hm1 Hm2]. split; [exact Hm1|]. apply Z.le_neq. split; [|exact Hne]. apply Z.lt_succ_r. exact Hm2.
Qed.
Lemma small_prime n : (1 <? n) && no_divisor 40 2 n = true -> prime n.
Proof.
  intros H. apply andb_prop in H. destruct H as [H1 H2]. apply Z.ltb_lt in H1. apply (no_divisor_ok 40 2); auto; [apply Z.le_refl|].
  intros m [Hm1 Hm2]. exfalso. apply (Z.lt_irrefl m). apply (Z.lt_le_trans _ 2); [exact Hm2|]. apply Z.le_succ_l in Hm1. exact Hm1.
Qed.

Lemma prime_409 : prime 409.
Proof. apply small_prime. vm_compute. reflexivity. Qed.
Lemma prime_1637 : prime 1637.
Proof.
  apply (check_prime _ 2 [(409, 1%nat)]); [vm_compute; reflexivity|].
  repeat apply Forall_cons; try apply Forall_nil; cbn [fst].
  - exact prime_409.
Qed.
Lemma prime_853 : prime 853.
Proof. apply small_prime. vm_compute. reflexivity. Qed.
Lemma prime_639533339 : prime 639533339.
Proof.
  apply (check_prime _ 2 [(1637, 1%nat); (853, 1%nat)]); [vm_compute; reflexivity|].
  repeat apply Forall_cons; try apply Forall_nil; cbn [fst].
  - exact prime_1637.
  - exact prime_853.
Qed.
Lemma prime_65865678001877903 : prime 65865678001877903.
Proof.
  apply (check_prime _ 2 [(639533339, 1%nat)]); [vm_compute; reflexivity|].
  repeat apply Forall_cons; try apply Forall_nil; cbn [fst].
  - exact prime_639533339.
Qed.
Lemma prime_13818364434197438864469338081 : prime 13818364434197438864469338081.
Proof.
  apply (check_prime _ 2 [(65865678001877903, 1%nat)]); [vm_compute; reflexivity|].
  repeat apply Forall_cons; try apply Forall_nil; cbn [fst].
  - exact prime_65865678001877903.
Qed.
Lemma prime_5 : prime 5.
Proof. apply small_prime. vm_compute. reflexivity. Qed.
Lemma prime_31 : prime 31.
Proof. apply small_prime. vm_compute. reflexivity. Qed.
Lemma prime_93001 : prime 93001.
Proof.
  apply (check_prime _ 2 [(5, 3%nat); (31, 1%nat)]); [vm_compute; reflexivity|].
  repeat apply Forall_cons; try apply Forall_nil; cbn [fst].
  - exact prime_5.
  - exact prime_31.
Qed.
Lemma prime_661 : prime 661.
Proof. apply small_prime. vm_compute. reflexivity. Qed.
Lemma prime_12048837557 : prime 12048837557.
Proof.
  apply (check_prime _ 2 [(93001, 1%nat); (661, 1%nat)]); [vm_compute; reflexivity|].
  repeat apply Forall_cons; try apply Forall_nil; cbn [fst].
  - exact prime_93001.
  - exact prime_661.
Qed.
Lemma prime_5156902474397 : prime 5156902474397.
Proof.
  apply (check_prime _ 2 [(12048837557, 1%nat)]); [vm_compute; reflexivity|].
  repeat apply Forall_cons; try apply Forall_nil; cbn [fst].
  - exact prime_12048837557.
Qed.
Lemma prime_1670836401704629 : prime 1670836401704629.
Proof.
  apply (check_prime _ 2 [(5156902474397, 1%nat)]); [vm_compute; reflexivity|].
  repeat apply Forall_cons; try apply Forall_nil; cbn [fst].
  - exact prime_5156902474397.
Qed.
Lemma prime_bn254_r : prime bn254_r.
Proof.
  apply (check_prime _ 2 [(13818364434197438864469338081, 1%nat); (1670836401704629, 1%nat)]); [vm_compute; reflexivity|].
  repeat apply Forall_cons; try apply Forall_nil; cbn [fst].
  - exact prime_13818364434197438864469338081.
  - exact prime_1670836401704629.
Qed.
Lemma prime_359 : prime 359.
Proof. apply small_prime. vm_compute. reflexivity. Qed.
Lemma prime_110573 : prime 110573.
Proof.
  apply (check_prime _ 2 [(359, 1%nat)]); [vm_compute; reflexivity|].
  repeat apply Forall_cons; try apply Forall_nil; cbn [fst].
  - exact prime_359.
Qed.
Lemma prime_2653753 : prime 2653753.
Proof.
  apply (check_prime _ 2 [(110573, 1%nat)]); [vm_compute; reflexivity|].
  repeat apply Forall_cons; try apply Forall_nil; cbn [fst].
  - exact prime_110573.
Qed.
Lemma prime_63690073 : prime 63690073.
Proof.
  apply (check_prime _ 2 [(2653753, 1%nat)]); [vm_compute; reflexivity|].
  repeat apply Forall_cons; try apply Forall_nil; cbn [fst].
  - exact prime_2653753.
Qed.
Lemma prime_254760293 : prime 254760293.
Proof.
  apply (check_prime _ 2 [(63690073, 1%nat)]); [vm_compute; reflexivity|].
  repeat apply Forall_cons; try apply Forall_nil; cbn [fst].
  - exact prime_63690073.
Qed.
Lemma prime_73 : prime 73.
Proof. apply small_prime. vm_compute. reflexivity. Qed.
Lemma prime_1607 : prime 1607.
Proof.
  apply (check_prime _ 2 [(73, 1%nat)]); [vm_compute; reflexivity|].
  repeat apply Forall_cons; try apply Forall_nil; cbn [fst].
  - exact prime_73.
Qed.
Lemma prime_906349 : prime 906349.
Proof.
  apply (check_prime _ 2 [(1607, 1%nat)]); [vm_compute; reflexivity|].
  repeat apply Forall_cons; try apply Forall_nil; cbn [fst].
  - exact prime_1607.
Qed.
Lemma prime_2 : prime 2.
Proof. apply small_prime. vm_compute. reflexivity. Qed.
Lemma prime_bls12_381_r : prime bls12_381_r.
Proof.
  apply (check_prime _ 5 [(254760293, 2%nat); (906349, 2%nat); (2, 32%nat)]); [vm_compute; reflexivity|].
  repeat apply Forall_cons; try apply Forall_nil; cbn [fst].
  - exact prime_254760293.
  - exact prime_906349.
  - exact prime_2.
Qed.
Lemma prime_13 : prime 13.
Proof. apply small_prime. vm_compute. reflexivity. Qed.
Lemma prime_11 : prime 11.
Proof. apply small_prime. vm_compute. reflexivity. Qed.
Lemma prime_3 : prime 3.
Proof. apply small_prime. vm_compute. reflexivity. Qed.
Lemma prime_25741 : prime 25741.
Proof.
  apply (check_prime _ 3 [(13, 1%nat); (11, 1%nat); (3, 2%nat)]); [vm_compute; reflexivity|].
  repeat apply Forall_cons; try apply Forall_nil; cbn [fst].
  - exact prime_13.
  - exact prime_11.
  - exact prime_3.
Qed.
Lemma prime_772231 : prime 772231.
Proof.
  apply (check_prime _ 2 [(25741, 1%nat)]); [vm_compute; reflexivity|].
  repeat apply Forall_cons; try apply Forall_nil; cbn [fst].
  - exact prime_25741.
Qed.
Lemma prime_41 : prime 41.
Proof. apply small_prime. vm_compute. reflexivity. Qed.
Lemma prime_413527 : prime 413527.
Proof.
  apply (check_prime _ 2 [(41, 3%nat)]); [vm_compute; reflexivity|].
  repeat apply Forall_cons; try apply Forall_nil; cbn [fst].
  - exact prime_41.
Qed.
Lemma prime_325086459374267 : prime 325086459374267.
Proof.
  apply (check_prime _ 2 [(772231, 1%nat); (413527, 1%nat)]); [vm_compute; reflexivity|].
  repeat apply Forall_cons; try apply Forall_nil; cbn [fst].
  - exact prime_772231.
  - exact prime_413527.
Qed.
Lemma prime_977 : prime 977.
Proof. apply small_prime. vm_compute. reflexivity. Qed.
Lemma prime_19 : prime 19.
Proof. apply small_prime. vm_compute. reflexivity. Qed.
Lemma prime_6942563 : prime 6942563.
Proof.
  apply (check_prime _ 2 [(977, 1%nat); (19, 1%nat)]); [vm_compute; reflexivity|].
  repeat apply Forall_cons; try apply Forall_nil; cbn [fst].
  - exact prime_977.
  - exact prime_19.
Qed.
Lemma prime_41655379 : prime 41655379.
Proof.
  apply (check_prime _ 2 [(6942563, 1%nat)]); [vm_compute; reflexivity|].
  repeat apply Forall_cons; try apply Forall_nil; cbn [fst].
  - exact prime_6942563.
Qed.
Lemma prime_22160661629 : prime 22160661629.
Proof.
  apply (check_prime _ 2 [(41655379, 1%nat)]); [vm_compute; reflexivity|].
  repeat apply Forall_cons; try apply Forall_nil; cbn [fst].
  - exact prime_41655379.
Qed.
Lemma prime_8999194758858563409123804352480028797519453 : prime 8999194758858563409123804352480028797519453.
Proof.
  apply (check_prime _ 2 [(325086459374267, 1%nat); (22160661629, 1%nat)]); [vm_compute; reflexivity|].
  repeat apply Forall_cons; try apply Forall_nil; cbn [fst].
  - exact prime_325086459374267.
  - exact prime_22160661629.
Qed.
Lemma prime_pallas_p : prime pallas_p.
Proof.
  apply (check_prime _ 2 [(8999194758858563409123804352480028797519453, 1%nat)]); [vm_compute; reflexivity|].
  repeat apply Forall_cons; try apply Forall_nil; cbn [fst].
  - exact prime_8999194758858563409123804352480028797519453.
Qed.
Lemma prime_43 : prime 43.
Proof. apply small_prime. vm_compute. reflexivity. Qed.
Lemma prime_31649 : prime 31649.
Proof.
  apply (check_prime _ 3 [(43, 1%nat); (2, 5%nat)]); [vm_compute; reflexivity|].
  repeat apply Forall_cons; try apply Forall_nil; cbn [fst].
  - exact prime_43.
  - exact prime_2.
Qed.
Lemma prime_23 : prime 23.
Proof. apply small_prime. vm_compute. reflexivity. Qed.
Lemma prime_3037 : prime 3037.
Proof.
  apply (check_prime _ 2 [(23, 1%nat); (11, 1%nat)]); [vm_compute; reflexivity|].
  repeat apply Forall_cons; try apply Forall_nil; cbn [fst].
  - exact prime_23.
  - exact prime_11.
Qed.
Lemma prime_12149 : prime 12149.
Proof.
  apply (check_prime _ 2 [(3037, 1%nat)]); [vm_compute; reflexivity|].
  repeat apply Forall_cons; try apply Forall_nil; cbn [fst].
  - exact prime_3037.
Qed.
Lemma prime_5239247429827 : prime 5239247429827.
Proof.
  apply (check_prime _ 2 [(31649, 1%nat); (12149, 1%nat)]); [vm_compute; reflexivity|].
  repeat apply Forall_cons; try apply Forall_nil; cbn [fst].
  - exact prime_31649.
  - exact prime_12149.
Qed.
Lemma prime_29 : prime 29.
Proof. apply small_prime. vm_compute. reflexivity. Qed.
Lemma prime_7 : prime 7.
Proof. apply small_prime. vm_compute. reflexivity. Qed.
Lemma prime_6091 : prime 6091.
Proof.
  apply (check_prime _ 2 [(29, 1%nat); (7, 1%nat)]); [vm_compute; reflexivity|].
  repeat apply Forall_cons; try apply Forall_nil; cbn [fst].
  - exact prime_29.
  - exact prime_7.
Qed.
Lemma prime_5701177 : prime 5701177.
Proof.
  apply (check_prime _ 2 [(6091, 1%nat)]); [vm_compute; reflexivity|].
  repeat apply Forall_cons; try apply Forall_nil; cbn [fst].
  - exact prime_6091.
Qed.
Lemma prime_399082391 : prime 399082391.
Proof.
  apply (check_prime _ 2 [(5701177, 1%nat)]); [vm_compute; reflexivity|].
  repeat apply Forall_cons; try apply Forall_nil; cbn [fst].
  - exact prime_5701177.
Qed.
Lemma prime_10427374428728808478656897599072717 : prime 10427374428728808478656897599072717.
Proof.
  apply (check_prime _ 2 [(5239247429827, 1%nat); (399082391, 1%nat)]); [vm_compute; reflexivity|].
  repeat apply Forall_cons; try apply Forall_nil; cbn [fst].
  - exact prime_5239247429827.
  - exact prime_399082391.
Qed.
Lemma prime_241 : prime 241.
Proof. apply small_prime. vm_compute. reflexivity. Qed.
Lemma prime_125803 : prime 125803.
Proof.
  apply (check_prime _ 2 [(241, 1%nat); (29, 1%nat)]); [vm_compute; reflexivity|].
  repeat apply Forall_cons; try apply Forall_nil; cbn [fst].
  - exact prime_241.
  - exact prime_29.
Qed.
Lemma prime_2012849 : prime 2012849.
Proof.
  apply (check_prime _ 2 [(125803, 1%nat)]); [vm_compute; reflexivity|].
  repeat apply Forall_cons; try apply Forall_nil; cbn [fst].
  - exact prime_125803.
Qed.
Lemma prime_4025699 : prime 4025699.
Proof.
  apply (check_prime _ 2 [(2012849, 1%nat)]); [vm_compute; reflexivity|].
  repeat apply Forall_cons; try apply Forall_nil; cbn [fst].
  - exact prime_2012849.
Qed.
Lemma prime_80513981 : prime 80513981.
Proof.
  apply (check_prime _ 2 [(4025699, 1%nat)]); [vm_compute; reflexivity|].
  repeat apply Forall_cons; try apply Forall_nil; cbn [fst].
  - exact prime_4025699.
Qed.
Lemma prime_5247740253619 : prime 5247740253619.
Proof.
  apply (check_prime _ 2 [(80513981, 1%nat)]); [vm_compute; reflexivity|].
  repeat apply Forall_cons; try apply Forall_nil; cbn [fst].
  - exact prime_80513981.
Qed.
Lemma prime_1690502597179744445941507 : prime 1690502597179744445941507.
Proof.
  apply (check_prime _ 2 [(5247740253619, 1%nat)]); [vm_compute; reflexivity|].
  repeat apply Forall_cons; try apply Forall_nil; cbn [fst].
  - exact prime_5247740253619.
Qed.
Lemma prime_vesta_p : prime vesta_p.
Proof.
  apply (check_prime _ 2 [(10427374428728808478656897599072717, 1%nat); (1690502597179744445941507, 1%nat)]); [vm_compute; reflexivity|].
  repeat apply Forall_cons; try apply Forall_nil; cbn [fst].
  - exact prime_10427374428728808478656897599072717.
  - exact prime_1690502597179744445941507.
Qed.
