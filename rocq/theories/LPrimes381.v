(** The order of the base field of BLS12-381 is prime.  Certificates found by tools/pocklington.py. *)
From Coq Require Import ZArith Znumtheory Lia List Bool.
From Verif Require Import LFermat LPrimes SpecH2C.
Import ListNotations.
Local Open Scope Z_scope.

Lemma prime_17 : prime 17.
Proof. apply small_prime. vm_compute. reflexivity. Qed.
Lemma prime_1327 : prime 1327.
Proof.
  apply (check_prime _ 2 [(17, 1%nat); (13, 1%nat)]); [vm_compute; reflexivity|].
  repeat apply Forall_cons; try apply Forall_nil; cbn [fst].
  - exact prime_17.
  - exact prime_13.
Qed.
Lemma prime_421987 : prime 421987.
Proof.
  apply (check_prime _ 2 [(1327, 1%nat)]); [vm_compute; reflexivity|].
  repeat apply Forall_cons; try apply Forall_nil; cbn [fst].
  - exact prime_1327.
Qed.
Lemma prime_13090036741 : prime 13090036741.
Proof.
  apply (check_prime _ 2 [(421987, 1%nat)]); [vm_compute; reflexivity|].
  repeat apply Forall_cons; try apply Forall_nil; cbn [fst].
  - exact prime_421987.
Qed.
Lemma prime_1151 : prime 1151.
Proof.
  apply (check_prime _ 2 [(5, 2%nat); (23, 1%nat)]); [vm_compute; reflexivity|].
  repeat apply Forall_cons; try apply Forall_nil; cbn [fst].
  - exact prime_5.
  - exact prime_23.
Qed.
Lemma prime_755057 : prime 755057.
Proof.
  apply (check_prime _ 2 [(1151, 1%nat)]); [vm_compute; reflexivity|].
  repeat apply Forall_cons; try apply Forall_nil; cbn [fst].
  - exact prime_1151.
Qed.
Lemma prime_3819663927398918131021 : prime 3819663927398918131021.
Proof.
  apply (check_prime _ 2 [(13090036741, 1%nat); (755057, 1%nat)]); [vm_compute; reflexivity|].
  repeat apply Forall_cons; try apply Forall_nil; cbn [fst].
  - exact prime_13090036741.
  - exact prime_755057.
Qed.
Lemma prime_1125266252156850182658904441386709967 : prime 1125266252156850182658904441386709967.
Proof.
  apply (check_prime _ 2 [(3819663927398918131021, 1%nat)]); [vm_compute; reflexivity|].
  repeat apply Forall_cons; try apply Forall_nil; cbn [fst].
  - exact prime_3819663927398918131021.
Qed.
Lemma prime_15778400344354997994418419698270088123916926905054652752758194827714659 : prime 15778400344354997994418419698270088123916926905054652752758194827714659.
Proof.
  apply (check_prime _ 2 [(1125266252156850182658904441386709967, 1%nat)]); [vm_compute; reflexivity|].
  repeat apply Forall_cons; try apply Forall_nil; cbn [fst].
  - exact prime_1125266252156850182658904441386709967.
Qed.
Lemma prime_bls12_381_q : prime bls12_381_q.
Proof.
  apply (check_prime _ 2 [(15778400344354997994418419698270088123916926905054652752758194827714659, 1%nat)]); [vm_compute; reflexivity|].
  repeat apply Forall_cons; try apply Forall_nil; cbn [fst].
  - exact prime_15778400344354997994418419698270088123916926905054652752758194827714659.
Qed.
