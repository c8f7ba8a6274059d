(** A CRC taken as an integer: proofs for C74. *)
From Coq Require Import NArith Arith List Bool Lia ZifyBool ZifyNat ZifyN ZArith.
From Verif Require Import SpecStream SpecWords LStream MPack LMDStmt LWords SpecHost LHost SpecCrc MCrc.
From Verif Require LCrc PCrc.
Import ListNotations.
Ltac Zify.zify_post_hook ::= Z.div_mod_to_equations.

Lemma le_value_bound os : Forall (fits 8) os -> (le_value os < 256 ^ N.of_nat (length os))%N.
Proof.
  induction 1 as [|o os Ho F IH]; [reflexivity|]. cbn [length le_value]. rewrite Nat2N.inj_succ, N.pow_succ_r'.
  unfold fits in Ho. change (2 ^ N.of_nat 8)%N with 256%N in Ho. lia.
Qed.
Lemma swap_fits n x : fits (8 * n) (swap_octets n x).
Proof.
  unfold fits, swap_octets, be_value. pose proof (le_value_bound (rev (octets_le n x))) as B.
  rewrite rev_length, octets_le_length in B. replace (2 ^ N.of_nat (8 * n))%N with (256 ^ N.of_nat n)%N.
  - apply B. apply Forall_rev, octets_le_fits.
  - rewrite Nat2N.inj_mul, N.pow_mul_r. reflexivity.
Qed.
Lemma integer_of_rev n x : 0 < n -> as_integer (8 * n) (rev (octets_le n x)) = swap_octets n x.
Proof.
  intros Hn. unfold as_integer, pack_to, pack. rewrite <- swap_le.
  change (octets_le n (swap_octets n x)) with (octets_in_order LOBB n (swap_octets n x)).
  change host_order with LOBB. rewrite octets_in_order_stream by auto.
  replace (word_stream LOBB (8 * n) (swap_octets n x)) with (stream LOBB (8 * n) [swap_octets n x])
    by (unfold stream; cbn [flat_map]; now rewrite app_nil_r).
  rewrite words_of_stream_stream; [reflexivity|lia|lia|]. constructor; [apply swap_fits|constructor].
Qed.
Lemma integer_swapped cc P it os : crc_ok P -> PCrc.computes cc P -> Forall (fits 8) os ->
  exists s, stream_range cc it (crc_init cc) os = Some s /\
    as_integer (W P) (crc_result cc (W P) s) = swap_octets (W P / 8) (CRC P os).
Proof.
  intros HP HC HF. destruct (PCrc.C44_crc_digest cc P it os HP HC HF) as (s & E & R). exists s. split; [exact E|].
  rewrite R. rewrite <- integer_of_rev.
  - f_equal. destruct HP. lia.
  - destruct HP. lia.
Qed.
Lemma integer_a cc it : PCrc.computes cc CRC32_PNG ->
  exists s, stream_range cc it (crc_init cc) [97%N] = Some s /\ CRC CRC32_PNG [97%N] = 0xe8b7be43%N /\
    as_integer 32 (crc_result cc 32 s) = 0x43beb7e8%N.
Proof.
  intros HC. destruct (integer_swapped cc CRC32_PNG it [97%N] LCrc.png_ok HC) as (s & E & R).
  { constructor; [reflexivity|constructor]. }
  exists s. split; [exact E|]. split; [vm_compute; reflexivity|]. refine (eq_trans R _). vm_compute. reflexivity.
Qed.
