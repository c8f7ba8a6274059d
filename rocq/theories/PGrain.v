(** * Properties C41, C53: the Grain generator and the tables of constants

    Specification: SpecGrain.v (the Poseidon paper's generation of constants), bijection_of in SpecPoseidon.v.
    Model: MGrain.v, MPoseidonTables.v. *)
From Coq Require Import NArith ZArith Arith List Bool.
From Verif Require Import SpecGrain SpecPoseidon MGrain MPoseidonTables.
From Verif Require LGrain LGrainTables LGrainStmt.
Import ListNotations.

(** C41: the LFSR step is a bijection of the 80-bit states... *)
Theorem C41_step_bijection : bijection_of (fun v => v < 2 ^ 80)%N update_lfsr_state_raw.
Proof. exact LGrainStmt.step_bijection. Qed.
Print Assumptions C41_step_bijection.
(** ... which is the step of the specification ([msb_bits]: bit 79 first)... *)
Theorem C41_step_is_grain : forall v, msb_bits 80 (update_lfsr_state_raw v) = shift (msb_bits 80 v).
Proof. exact LGrain.update_raw_msb. Qed.
Print Assumptions C41_step_is_grain.
(** ... and no state after the initial one, for any parameters, is zero. *)
Theorem C41_never_zero :
  forall word_bits state_words full_rounds part_rounds n,
  Nat.iter n update_lfsr_state_raw (get_lfsr_init_state word_bits state_words full_rounds part_rounds) <> 0%N.
Proof. exact LGrainStmt.never_zero. Qed.
Print Assumptions C41_never_zero.

(** C41: from every non-zero state the sampler ends after at most 80 turns, with the only output bit of the
    self-shrinking generator in the steps it made, and in a non-zero state again. *)
Theorem C41_sampler_bounded :
  forall v fuel, (v < 2 ^ 80)%N -> v <> 0%N -> 80 <= fuel ->
  exists v', update_lfsr_state fuel v = Some v' /\ (v' < 2 ^ 80)%N /\ v' <> 0%N /\
  exists n, n <= 80 /\ v' = Nat.iter (2 * n) update_lfsr_state_raw v /\
    shrink (raw (2 * n) (msb_bits 80 v)) = [N.odd v'].
Proof. exact LGrainStmt.sampler_bounded. Qed.
Print Assumptions C41_sampler_bounded.
(** A state from which it takes several turns. *)
Example C41_sampler_example :
  update_lfsr_state 8 1 = None /\ update_lfsr_state 80 1 <> None.
Proof. split; vm_compute; [reflexivity|discriminate]. Qed.

(** C41: the constants are, for every modulus, the integers below it in the self-shrunk stream of the instance,
    in order.  The S-box field of the initial state is 1. *)
Theorem C41_constants_of_stream :
  forall fuel tries w t RF RP p cs, 0 < w ->
  generate_round_constants fuel tries w t RF RP p = Some cs ->
  length cs = (RF + RP) * t /\
  exists len, below p (integers (init 1 1 (N.of_nat w) (N.of_nat t) (N.of_nat RF) (N.of_nat RP)) w len) = cs.
Proof. exact LGrain.generate_sound. Qed.
Print Assumptions C41_constants_of_stream.
Theorem C41_constants_reduced :
  forall fuel tries w t RF RP p cs, 0 < w ->
  generate_round_constants fuel tries w t RF RP p = Some cs -> Forall (fun c => c < p)%N cs.
Proof. exact LGrainStmt.generate_reduced. Qed.
Print Assumptions C41_constants_reduced.
(** They are produced if the stream has enough of them: the loops end. *)
Theorem C41_constants_complete :
  forall fuel tries w t RF RP p len, 0 < w ->
  let vs := integers (init 1 1 (N.of_nat w) (N.of_nat t) (N.of_nat RF) (N.of_nat RP)) w len in
  80 <= fuel -> length vs <= tries -> (RF + RP) * t <= length (below p vs) ->
  generate_round_constants fuel tries w t RF RP p = Some (firstn ((RF + RP) * t) (below p vs)).
Proof. exact LGrain.generate_complete. Qed.
Print Assumptions C41_constants_complete.
(** The same for Reinforced Concrete. *)
Theorem C41_reinforced_concrete_of_stream :
  forall fuel tries w t RP p cs, 0 < w ->
  rc_generate_round_constants fuel tries w t RP p = Some cs ->
  length cs = 2 * (RP + 1) * t /\
  exists len, below p (integers (init 1 1 (N.of_nat w) (N.of_nat t) (N.of_nat (2 * (RP + 1))) (N.of_nat RP)) w len) = cs.
Proof. exact LGrain.rc_generate_sound. Qed.
Print Assumptions C41_reinforced_concrete_of_stream.
Theorem C41_reinforced_concrete_reduced :
  forall fuel tries w t RP p cs, 0 < w ->
  rc_generate_round_constants fuel tries w t RP p = Some cs -> Forall (fun c => c < p)%N cs.
Proof. exact LGrainStmt.rc_generate_reduced. Qed.
Print Assumptions C41_reinforced_concrete_reduced.
Theorem C41_reinforced_concrete_complete :
  forall fuel tries w t RP p len, 0 < w ->
  let RF := 2 * (RP + 1) in
  let vs := integers (init 1 1 (N.of_nat w) (N.of_nat t) (N.of_nat RF) (N.of_nat RP)) w len in
  80 <= fuel -> length vs <= tries -> RF * t <= length (below p vs) ->
  rc_generate_round_constants fuel tries w t RP p = Some (firstn (RF * t) (below p vs)).
Proof. exact LGrain.rc_generate_complete. Qed.
Print Assumptions C41_reinforced_concrete_complete.
(** The hypotheses hold for the scalar field of BN254: the generator returns. *)
Example C41_constants_example :
  exists cs, generate_round_constants 80 1000 254 3 8 57 (Z.to_N bn254_r) =
    Some (0x2b149bee29246b2661a408d4cc9742d81dcadd4f169e3b741c64e11a27b5309d%N :: cs).
Proof. apply LGrainStmt.bn254_generated; auto with arith. Qed.

(** Refutation of "the stream is the one of the Poseidon specification": the specification codes x^alpha as 0 and the
    library's own tables were made so (C53), hence the generator does not return the table. *)
Theorem C41_generator_gives_table_refuted :
  forall fuel tries cs, 80 <= fuel -> 1000 <= tries ->
  generate_round_constants fuel tries 254 3 8 57 (Z.to_N bn254_r) = Some cs -> cs <> concat bn254_2_rc.
Proof. exact LGrainStmt.bn254_differs. Qed.
Print Assumptions C41_generator_gives_table_refuted.

(** C53: the four tables of original_constants.hpp are what the published generation gives. *)
Theorem C53_bn254_rate_2 : published (Z.to_N bn254_r) 254 3 8 57 bn254_2_rc bn254_2_mds.
Proof. exact LGrainTables.bn254_2. Qed.
Print Assumptions C53_bn254_rate_2.
Theorem C53_bn254_rate_4 : published (Z.to_N bn254_r) 254 5 8 60 bn254_4_rc bn254_4_mds.
Proof. exact LGrainTables.bn254_4. Qed.
Print Assumptions C53_bn254_rate_4.
Theorem C53_bls12_381_rate_2 : published (Z.to_N bls12_381_r) 255 3 8 57 bls12_381_2_rc bls12_381_2_mds.
Proof. exact LGrainTables.bls12_381_2. Qed.
Print Assumptions C53_bls12_381_rate_2.
Theorem C53_bls12_381_rate_4 : published (Z.to_N bls12_381_r) 255 5 8 60 bls12_381_4_rc bls12_381_4_mds.
Proof. exact LGrainTables.bls12_381_4. Qed.
Print Assumptions C53_bls12_381_rate_4.
