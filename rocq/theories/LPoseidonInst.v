(** The instances of Poseidon for which there are tables: proofs. *)
From Coq Require Import NArith ZArith Znumtheory Arith List Bool Lia Ring_theory.
From Verif Require Import SpecPoseidon MPoseidonTables MPoseidon LPoseidon LPoseidonBij LPoseidonSponge LFermat LPrimes LZp LPoseidonInverse.
Import ListNotations.
Local Open Scope nat_scope.

(** The modulus is not unfolded where it is not needed. *)
Record good (p : Z) (P : base_policy) (mds rc : list (list N)) : Prop := {
  g_prime : prime p;
  g_capacity : capacity P = 1;
  g_rate : 0 < rate P;
  g_mds : is_square (state_words P) (of_table p mds);
  g_inv : invertible (state_words P) (of_table p mds);
  g_rc : length (of_table p rc) = full_rounds P + part_rounds P /\ Forall (fun r => length r = state_words P) (of_table p rc);
  g_sbox : exists g, @sbox_inverse (Zp p) (sbox_power P) g }.
Lemma good_intro p P mds rc inv e k : prime p ->
  (capacity P =? 1) && (0 <? rate P) = true ->
  shape_ok (state_words P) (state_words P) mds = true ->
  shape_ok (state_words P) (state_words P) inv && check_identity p (state_words P) mds inv && check_identity p (state_words P) inv mds = true ->
  shape_ok (full_rounds P + part_rounds P) (state_words P) rc = true ->
  ((0 <? e) && (0 <=? k) && (Z.of_nat (sbox_power P) * e =? 1 + k * (p - 1)))%Z = true -> good p P mds rc.
Proof.
  intros Pp H1 H2 H3 H4 H5. pose proof (prime_ge_2 p Pp) as Hp. apply andb_prop in H1. destruct H1 as [C R]. apply Nat.eqb_eq in C. apply Nat.ltb_lt in R.
  apply andb_prop in H5. destruct H5 as [H5 H6]. apply andb_prop in H5. destruct H5 as [H5 H7].
  apply Z.ltb_lt in H5. apply Z.leb_le in H7. apply Z.eqb_eq in H6.
  constructor; auto.
  - now apply shape_ok_ok.
  - apply (table_invertible p ltac:(lia) _ mds inv); auto. lia.
  - now apply shape_ok_ok.
  - exists (fun x => to_zp p (proj1_sig x ^ e)). apply (zp_sbox_inverse p ltac:(lia) _ e k); auto.
Qed.
Definition exponent (p : Z) (a : Z) : Z := (* a^-1 modulo p - 1, for p - 1 = -1 / (2 or 3 ..) modulo a *)
  let m := (p - 1)%Z in
  let fix find (n : nat) (k : Z) := match n with O => 0%Z | S n' => if ((1 + k * m) mod a =? 0)%Z then k else find n' (k + 1)%Z end in
  find 10 0%Z.
Lemma good_bn254_2 : good bn254_r (base 128 2 1 5 8 57 false) bn254_2_mds bn254_2_rc.
Proof.
  apply (good_intro _ _ _ _ bn254_2_inverse ((1 + exponent bn254_r 5 * (bn254_r - 1)) / 5)%Z (exponent bn254_r 5) prime_bn254_r);
    vm_compute; reflexivity.
Qed.
Lemma good_bn254_4 : good bn254_r (base 128 4 1 5 8 60 false) bn254_4_mds bn254_4_rc.
Proof.
  apply (good_intro _ _ _ _ bn254_4_inverse ((1 + exponent bn254_r 5 * (bn254_r - 1)) / 5)%Z (exponent bn254_r 5) prime_bn254_r);
    vm_compute; reflexivity.
Qed.
Lemma good_bls12_381_2 : good bls12_381_r (base 128 2 1 5 8 57 false) bls12_381_2_mds bls12_381_2_rc.
Proof.
  apply (good_intro _ _ _ _ bls12_381_2_inverse ((1 + exponent bls12_381_r 5 * (bls12_381_r - 1)) / 5)%Z (exponent bls12_381_r 5) prime_bls12_381_r);
    vm_compute; reflexivity.
Qed.
Lemma good_bls12_381_4 : good bls12_381_r (base 128 4 1 5 8 60 false) bls12_381_4_mds bls12_381_4_rc.
Proof.
  apply (good_intro _ _ _ _ bls12_381_4_inverse ((1 + exponent bls12_381_r 5 * (bls12_381_r - 1)) / 5)%Z (exponent bls12_381_r 5) prime_bls12_381_r);
    vm_compute; reflexivity.
Qed.
Lemma good_pallas : good pallas_p mina_poseidon_policy pallas_mds pallas_rc.
Proof.
  apply (good_intro _ _ _ _ pallas_inverse ((1 + exponent pallas_p 7 * (pallas_p - 1)) / 7)%Z (exponent pallas_p 7) prime_pallas_p);
    vm_compute; reflexivity.
Qed.
Lemma good_vesta : good vesta_p mina_poseidon_policy vesta_mds vesta_rc.
Proof.
  apply (good_intro _ _ _ _ vesta_inverse ((1 + exponent vesta_p 7 * (vesta_p - 1)) / 7)%Z (exponent vesta_p 7) prime_vesta_p);
    vm_compute; reflexivity.
Qed.
(** All instances of poseidon_policy. *)
Lemma original_cases f sec rt P mds rc : poseidon_policy sec rt = Some P -> constants_data f P = Some (mds, rc) ->
  mina_version P = false /\ sbox_power P = 5 /\ full_rounds P = 8 /\ rate P = rt /\ good (modulus f) P mds rc.
Proof.
  intros HP HC. unfold poseidon_policy in HP.
  destruct (sec =? 80); [|destruct (sec =? 128); [|destruct (sec =? 256); [|discriminate]]].
  - destruct ((rt =? 1) || (rt =? 2)); [injection HP as <-; destruct f; discriminate HC|].
    destruct (rt =? 4); [|discriminate]. injection HP as <-. destruct f; discriminate HC.
  - destruct ((rt =? 1) || (rt =? 2)) eqn:E1.
    { destruct (Nat.eqb_spec rt 1) as [->|N1]; [injection HP as <-; destruct f; discriminate HC|].
      destruct (Nat.eqb_spec rt 2) as [->|N2]; [|discriminate E1].
      injection HP as <-. destruct f; try discriminate HC; injection HC as <- <-; repeat (split; [reflexivity|]); [apply good_bn254_2|apply good_bls12_381_2]. }
    destruct (Nat.eqb_spec rt 4) as [->|N4].
    { injection HP as <-. destruct f; try discriminate HC; injection HC as <- <-; repeat (split; [reflexivity|]); [apply good_bn254_4|apply good_bls12_381_4]. }
    destruct (rt =? 8); [|discriminate]. injection HP as <-. destruct f; discriminate HC.
  - destruct (rt <=? 4); [|discriminate]. injection HP as <-. destruct f; discriminate HC.
Qed.
Lemma mina_cases f mds rc : constants_data f mina_poseidon_policy = Some (mds, rc) -> good (modulus f) mina_poseidon_policy mds rc.
Proof. intros HC. destruct f; try discriminate HC; injection HC as <- <-; [apply good_pallas|apply good_vesta]. Qed.
Section Good.
Context (p : Z) (P : base_policy) (mds rc : list (list N)) (G : good p P mds rc).
Lemma good_pos : (0 < p)%Z. Proof. pose proof (prime_ge_2 p (g_prime _ _ _ _ G)). lia. Qed.
Lemma good_shaped : shaped P (of_table p mds) (of_table p rc).
Proof.
  destruct (g_mds _ _ _ _ G) as [M1 M2]. destruct (g_rc _ _ _ _ G) as [R1 R2]. pose proof (g_rate _ _ _ _ G).
  repeat split; auto. unfold state_words. lia.
Qed.
Lemma good_original : mina_version P = false ->
  (forall s, length s = state_words P -> permute_state P (of_table p mds) (of_table p rc) s =
     Some (poseidon_permutation (sbox_power P) (full_rounds P) (part_rounds P) (of_table p mds) (of_table p rc) s)) /\
  bijection_of (fun s => length s = state_words P)
    (poseidon_permutation (sbox_power P) (full_rounds P) (part_rounds P) (of_table p mds) (of_table p rc)).
Proof.
  intros Hm. split.
  - intros s Hs. apply permute_original; auto; [exact (zp_ring p)|exact good_shaped].
  - destruct (g_sbox _ _ _ _ G) as (g & Hg). destruct (g_rc _ _ _ _ G) as [R1 R2].
    apply (permutation_bijection (zp_ring p) _ _ g); auto; [apply G|apply G].
Qed.
Lemma good_mina : mina_version P = true -> part_rounds P = 0 ->
  (forall s, length s = state_words P -> permute_state P (of_table p mds) (of_table p rc) s =
     Some (mina_permutation (sbox_power P) (full_rounds P) (of_table p mds) (of_table p rc) s)) /\
  bijection_of (fun s => length s = state_words P)
    (mina_permutation (sbox_power P) (full_rounds P) (of_table p mds) (of_table p rc)).
Proof.
  intros Hm Hz. split.
  - intros s Hs. apply permute_mina; auto; [exact (zp_ring p)|exact good_shaped].
  - destruct (g_sbox _ _ _ _ G) as (g & Hg). destruct (g_rc _ _ _ _ G) as [R1 R2]. rewrite Hz, Nat.add_0_r in R1.
    apply (mina_bijection (zp_ring p) _ _ g); auto; apply G.
Qed.
End Good.
