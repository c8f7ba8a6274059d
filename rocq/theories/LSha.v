(** * Proofs about MD4, MD5, SHA, SHA-1 and SHA-2 *)
From Coq Require Import NArith Arith List Bool Lia ZifyBool ZifyNat ZifyN ZArith.
From Verif Require Import SpecStream SpecWords SpecMD SpecMDOctets MPack MAcc MConstr MMisc MSha.
From Verif Require SpecSha PMD LMisc.
From Verif Require Import LMDOctets.
Import ListNotations.
Local Open Scope N_scope.
Ltac Zify.zify_post_hook ::= Z.div_mod_to_equations.
Module S := SpecSha.

Lemma adder_loop_length w n : forall is s1 s2, Forall (fun i => (i < n)%nat) is -> length s1 = n ->
  length (state_adder_loop w is s1 s2) = n.
Proof.
  induction is as [|i is IH]; intros s1 s2 HF L; cbn [state_adder_loop]; auto.
  inversion HF; subst. apply IH; auto.
  rewrite app_length. cbn [length]. rewrite firstn_length, skipn_length. lia.
Qed.
Lemma adder_length w s1 s2 : length (state_adder w s1 s2) = length s1.
Proof.
  unfold state_adder. apply adder_loop_length; auto. apply Forall_forall. intros i Hi. apply in_seq in Hi.
  destruct (length s2 <? length s1)%nat eqn:E; lia.
Qed.

Lemma adder_combine w s1 s2 : length s2 = length s1 ->
  state_adder w s1 s2 = S.feed_forward (N.of_nat w) s1 s2.
Proof.
  intros L. destruct (LMisc.adder_ok w s1 s2 (eq_sym L)) as [A B]. unfold S.feed_forward.
  apply nth_ext with (d := 0) (d' := S.add (N.of_nat w) [0; 0]).
  - rewrite map_length, combine_length. lia.
  - intros i Hi. rewrite B by lia.
    rewrite (map_nth (fun p => S.add (N.of_nat w) [fst p; snd p]) (combine s1 s2) (0, 0)).
    rewrite combine_nth by lia. cbn [fst snd S.add fold_right]. unfold S.add. cbn [fold_right]. now rewrite N.add_0_r.
Qed.

(** One hash for each byte order, word size, cipher and initial value. *)
Lemma dm_once (big : bool) n dw k iv H0 cipher steps inj junk os :
  (n = 4 \/ n = 8)%nat -> (dw <= k)%nat ->
  (forall key text, length key = 16%nat -> Forall (fits (8 * n)) key -> length text = k -> Forall (fits (8 * n)) text ->
    cipher key text = steps key text) ->
  (forall key text, length text = k -> length (steps key text) = k) ->
  iv = H0 -> length iv = k -> Forall (fits (8 * n)) iv ->
  injector_contract (if big then BOBB else LOBB) (8 * n) 16 inj -> block_ok (8 * n) 16 junk ->
  Forall (fits 8) os -> N.of_nat (8 * length os) < 2 ^ 64 ->
  hash_once (dm_hash (if big then BOBB else LOBB) (8 * n) dw iv cipher inj) inj 8 junk os =
  Some (md_octets big n 16 (2 * n) 0x80 H0 (fun H M => S.feed_forward (N.of_nat (8 * n)) H (steps M H)) (n * dw) os).
Proof.
  intros Hn Hdw HC HL <- Hi Fi IC BO HF L. unfold dm_hash.
  replace (8 * n * 2)%nat with (8 * (2 * n))%nat by lia.
  change (md_construction ?e ?w 16 ?lb dw iv ?c (merkle_damgard_padding inj ?e ?w 16)) with (PMD.md e w 16 lb dw iv c inj).
  rewrite PMD.C01_md_digest_octets; auto.
  2:{ destruct Hn as [-> | ->]; constructor; cbn; lia. }
  2:{ destruct big; auto. }
  f_equal. replace (8 * n * dw)%nat with (8 * (n * dw))%nat by lia.
  set (comp := davies_meyer cipher (state_adder (8 * n))).
  assert (HP : forall bs s, length s = k -> length (fold_left comp bs s) = k).
  { induction bs as [|b bs IH]; intros s Hs; cbn [fold_left]; auto. apply IH. unfold comp, davies_meyer. now rewrite adder_length. }
  assert (Hn0 : (0 < n)%nat) by lia.
  rewrite (md_hash_octets big n 16 (2 * n) Hn0 ltac:(lia)); auto.
  2:{ intros bs. rewrite HP by auto. nia. }
  apply (md_octets_comp big n 16 (2 * n) Hn0 ltac:(lia) 0x80 iv comp _ (n * dw) os
           (fun s => length s = k /\ Forall (fits (8 * n)) s)); auto; [|reflexivity].
  intros s b [Hs Fs] [Hb Fb].
  assert (E : comp s b = S.feed_forward (N.of_nat (8 * n)) s (steps b s)).
  { unfold comp, davies_meyer. rewrite HC by auto. apply adder_combine. rewrite HL; auto. }
  rewrite E. split; [reflexivity|]. split.
  - unfold S.feed_forward. rewrite map_length, combine_length, HL by auto. lia.
  - unfold S.feed_forward. apply Forall_map, Forall_forall. intros p _. unfold S.add, fits. apply N.mod_lt.
    apply N.pow_nonzero. discriminate.
Qed.

Lemma fold_length {B} (f : list N -> B -> list N) k : (forall v x, length v = k -> length (f v x) = k) ->
  forall l v, length v = k -> length (fold_left f l v) = k.
Proof. intros H. induction l as [|x l IH]; intros v Hv; cbn; auto. Qed.

Lemma sha2_steps_length w r A B C D key text : length text = 8%nat -> length (S.sha2_steps w r A B C D key text) = 8%nat.
Proof.
  apply fold_length. intros v t Hv. destruct v as [|a [|b [|c [|d [|e [|f [|g [|h [|]]]]]]]]]; try discriminate Hv. reflexivity.
Qed.
Lemma sha1_steps_length r key text : length text = 5%nat -> length (S.sha1_steps_with r key text) = 5%nat.
Proof.
  apply fold_length. intros v t Hv. destruct v as [|a [|b [|c [|d [|e [|]]]]]]; try discriminate Hv. reflexivity.
Qed.
Lemma md4_round_length f k o s X v : length v = 4%nat -> length (S.md4_round f k o s X v) = 4%nat.
Proof.
  apply fold_length. intros u t Hv. destruct u as [|a [|b [|c [|d [|]]]]]; try discriminate Hv. reflexivity.
Qed.
Lemma md5_round_length f k o s X v : length v = 4%nat -> length (S.md5_round f k o s X v) = 4%nat.
Proof.
  apply fold_length. intros u t Hv. destruct u as [|a [|b [|c [|d [|]]]]]; try discriminate Hv. reflexivity.
Qed.
Lemma md4_steps_length key text : length text = 4%nat -> length (S.md4_steps key text) = 4%nat.
Proof. intros. unfold S.md4_steps. cbv zeta. repeat apply md4_round_length. assumption. Qed.
Lemma md5_steps_length key text : length text = 4%nat -> length (S.md5_steps key text) = 4%nat.
Proof. intros. unfold S.md5_steps. cbv zeta. repeat apply md5_round_length. assumption. Qed.

Lemma all_fit n l : forallb (fun x => x <? 2 ^ N.of_nat n) l = true -> Forall (fits n) l.
Proof.
  intros H. apply Forall_forall. intros x Hx. apply (proj1 (forallb_forall _ l) H x) in Hx.
  now apply N.ltb_lt in Hx.
Qed.
Lemma iv_224 : sha2_224_iv = S.sha224_H0. Proof. vm_compute. reflexivity. Qed.
Lemma iv_256 : sha2_256_iv = S.sha256_H0. Proof. vm_compute. reflexivity. Qed.
Lemma iv_384 : sha2_384_iv = S.sha384_H0. Proof. vm_compute. reflexivity. Qed.
Lemma iv_512 : sha2_512_iv = S.sha512_H0. Proof. vm_compute. reflexivity. Qed.

Section Hashes.
Context (cipher : list N -> list N -> list N) (inj : injector) (junk os : list N).
Definition computes (w k : nat) (steps : list N -> list N -> list N) : Prop :=
  forall key text, length key = 16%nat -> Forall (fits w) key -> length text = k -> Forall (fits w) text ->
  cipher key text = steps key text.

Lemma md4_once : computes 32 4 S.md4_steps -> injector_contract LOBB 32 16 inj -> block_ok 32 16 junk ->
  Forall (fits 8) os -> N.of_nat (8 * length os) < 2 ^ 64 -> hash_once (md4 cipher inj) inj 8 junk os = Some (S.MD4 os).
Proof.
  intros HC. apply (dm_once false 4 4 4 md4_iv S.md4_H0 cipher S.md4_steps); auto using md4_steps_length.
  apply all_fit. reflexivity.
Qed.
Lemma md5_once : computes 32 4 S.md5_steps -> injector_contract LOBB 32 16 inj -> block_ok 32 16 junk ->
  Forall (fits 8) os -> N.of_nat (8 * length os) < 2 ^ 64 -> hash_once (md5 cipher inj) inj 8 junk os = Some (S.MD5 os).
Proof.
  intros HC. apply (dm_once false 4 4 4 md5_iv S.md4_H0 cipher S.md5_steps); auto using md5_steps_length.
  apply all_fit. reflexivity.
Qed.
Lemma sha_once : computes 32 5 S.sha0_steps -> injector_contract BOBB 32 16 inj -> block_ok 32 16 junk ->
  Forall (fits 8) os -> N.of_nat (8 * length os) < 2 ^ 64 -> hash_once (sha cipher inj) inj 8 junk os = Some (S.SHA0 os).
Proof.
  intros HC. apply (dm_once true 4 5 5 sha_iv S.sha1_H0 cipher S.sha0_steps); auto using sha1_steps_length.
  - intros. now apply sha1_steps_length.
  - apply all_fit. reflexivity.
Qed.
Lemma sha1_once : computes 32 5 S.sha1_steps -> injector_contract BOBB 32 16 inj -> block_ok 32 16 junk ->
  Forall (fits 8) os -> N.of_nat (8 * length os) < 2 ^ 64 -> hash_once (sha1 cipher inj) inj 8 junk os = Some (S.SHA1 os).
Proof.
  intros HC. apply (dm_once true 4 5 5 sha1_iv S.sha1_H0 cipher S.sha1_steps); auto.
  - intros. now apply sha1_steps_length.
  - apply all_fit. reflexivity.
Qed.
Lemma sha2_224_once : computes 32 8 S.sha256_steps -> injector_contract BOBB 32 16 inj -> block_ok 32 16 junk ->
  Forall (fits 8) os -> N.of_nat (8 * length os) < 2 ^ 64 -> hash_once (sha2_224 cipher inj) inj 8 junk os = Some (S.SHA224 os).
Proof.
  intros HC. apply (dm_once true 4 7 8 sha2_224_iv S.sha224_H0 cipher S.sha256_steps); try exact iv_224; auto.
  - intros. now apply sha2_steps_length.
  - apply all_fit. reflexivity.
Qed.
Lemma sha2_256_once : computes 32 8 S.sha256_steps -> injector_contract BOBB 32 16 inj -> block_ok 32 16 junk ->
  Forall (fits 8) os -> N.of_nat (8 * length os) < 2 ^ 64 -> hash_once (sha2_256 cipher inj) inj 8 junk os = Some (S.SHA256 os).
Proof.
  intros HC. apply (dm_once true 4 8 8 sha2_256_iv S.sha256_H0 cipher S.sha256_steps); try exact iv_256; auto.
  - intros. now apply sha2_steps_length.
  - apply all_fit. reflexivity.
Qed.
Lemma sha2_384_once : computes 64 8 S.sha512_steps -> injector_contract BOBB 64 16 inj -> block_ok 64 16 junk ->
  Forall (fits 8) os -> N.of_nat (8 * length os) < 2 ^ 64 -> hash_once (sha2_384 cipher inj) inj 8 junk os = Some (S.SHA384 os).
Proof.
  intros HC. apply (dm_once true 8 6 8 sha2_384_iv S.sha384_H0 cipher S.sha512_steps); try exact iv_384; auto.
  - intros. now apply sha2_steps_length.
  - apply all_fit. reflexivity.
Qed.
Lemma sha2_512_once : computes 64 8 S.sha512_steps -> injector_contract BOBB 64 16 inj -> block_ok 64 16 junk ->
  Forall (fits 8) os -> N.of_nat (8 * length os) < 2 ^ 64 -> hash_once (sha2_512 cipher inj) inj 8 junk os = Some (S.SHA512 os).
Proof.
  intros HC. apply (dm_once true 8 8 8 sha2_512_iv S.sha512_H0 cipher S.sha512_steps); try exact iv_512; auto.
  - intros. now apply sha2_steps_length.
  - apply all_fit. reflexivity.
Qed.
End Hashes.
