(** * Property C68: the timing of the Keccak assembly does not depend on the data

    Specification of what a record tells: SpecTiming.v.  Model: MTiming.v, which records the instructions executed, the
    addresses and sizes of their memory operands and the branches taken.  Each of the first four theorems says that one record [t] is the record of every run, whatever the state that is
    permuted, the registers and the uninitialised memory hold.  The run recorded is the run of C17-C20. *)
From Coq Require Import NArith ZArith Arith List Bool.
From Verif Require Import MKeccak MAsm MKeccakX86 MKeccakArm MKeccakAvx2 MKeccakAvx512 MTiming SpecTiming.
From Verif Require LTiming LTimingRec.
Import ListNotations.

Theorem C68_x86_64_constant_time :
  exists t, forall fuel rs c0 b0 st,
  24 <= fuel -> length rs = 16 -> length c0 = 10 -> length b0 = 25 -> length st = 25 ->
  exists m, x86_traced fuel rs c0 b0 st = Some (t, m) /\ x86_exec fuel rs c0 b0 st = Some m.
Proof. exact LTiming.x86_constant_time. Qed.
Print Assumptions C68_x86_64_constant_time.

Theorem C68_armv8_constant_time :
  exists t, forall rs stack st,
  length rs = 31 -> length stack = 4 -> length st = 25 ->
  exists m, arm_traced rs stack st = Some (t, m) /\ arm_exec rs stack st = Some m.
Proof. exact LTiming.arm_constant_time. Qed.
Print Assumptions C68_armv8_constant_time.

(** One record for each register the compiler may choose for the operand [rounds], except the three with which the
    assembly does not work (C19). *)
Theorem C68_avx2_constant_time_partial :
  forall rounds, rounds < 16 -> ~ In rounds [8; 9; 10] ->
  exists t, forall fuel rs vs st,
  24 <= fuel -> length rs = 16 -> length vs = 16 -> Forall (fun l => length l = 4) vs ->
  exists m, avx2_traced fuel rounds rs vs st = Some (t, m) /\ avx2_exec fuel rounds rs vs st = Some m.
Proof. exact LTiming.avx2_constant_time. Qed.
Print Assumptions C68_avx2_constant_time_partial.

(** The AVX-512 code, wrong as its result is (C20), with the masks its author had in mind in k1-k5. *)
Theorem C68_avx512_constant_time_partial :
  exists t, forall fuel rs vs st,
  12 <= fuel -> length rs = 24 -> firstn 5 (skipn 17 rs) = map CW [1; 2; 4; 8; 16]%N ->
  length vs = 8 -> Forall (fun l => length l = 8) vs ->
  exists m, avx512_traced fuel rs vs st = Some (t, m) /\ avx512_exec fuel avx512_lanes rs vs st = Some m.
Proof. exact LTiming.avx512_constant_time. Qed.
Print Assumptions C68_avx512_constant_time_partial.

(** The record is complete.  The instructions are those of the program, repeated as the branches say; a word of memory
    that is not in a recorded write has not changed. *)
Theorem C68_record_path_and_writes :
  forall p fuel counter q m t m', traced_both concrete c_count p fuel counter q m = Some (t, m') ->
  (exists j, executed t = p ++ concat (repeat q (S j)) /\ branches t = repeat true j ++ [false]) /\
  (forall o k, written_in t o k \/ word_at m' o k = word_at m o k).
Proof. exact (LTimingRec.both_records concrete c_count). Qed.
Print Assumptions C68_record_path_and_writes.
Theorem C68_record_writes_straight :
  forall p m t m', traced_run concrete c_count p m = Some (t, m') ->
  executed t = p /\ branches t = [] /\ forall o k, written_in t o k \/ word_at m' o k = word_at m o k.
Proof. exact (LTimingRec.run_records concrete c_count). Qed.
Print Assumptions C68_record_writes_straight.
(** A word that is in no recorded read does not matter: a run from a memory that differs only in such words has the same
    record, the same registers, and the same contents in every word read or written. *)
Theorem C68_record_reads :
  forall p fuel counter q (m n : c_machine) t m', zmm m -> alike m n -> traced_both concrete c_count p fuel counter q m = Some (t, m') ->
  (forall o k, read_in t o k -> word_at n o k = word_at m o k) ->
  exists n', traced_both concrete c_count p fuel counter q n = Some (t, n') /\ alike m' n' /\
  forall o k, read_in t o k \/ written_in t o k -> word_at n' o k = word_at m' o k.
Proof. exact (LTimingRec.both_reads concrete c_count). Qed.
Print Assumptions C68_record_reads.
Theorem C68_record_reads_straight :
  forall p (m n : c_machine) t m', zmm m -> alike m n -> traced_run concrete c_count p m = Some (t, m') ->
  (forall o k, read_in t o k -> word_at n o k = word_at m o k) ->
  exists n', traced_run concrete c_count p n = Some (t, n') /\ alike m' n' /\
  forall o k, read_in t o k \/ written_in t o k -> word_at n' o k = word_at m' o k.
Proof. exact (LTimingRec.run_records_reads concrete c_count). Qed.
Print Assumptions C68_record_reads_straight.

(** A record is not empty talk: that of the x86-64 code begins with these events. *)
Example C68_record :
  match x86_traced 24 (repeat (CW 7) 16) (repeat (CW 0) 10) (repeat (CW 0) 25) (map N.of_nat (seq 0 25)) with
  | Some (t, _) => firstn 5 t =
      [Execute (x_mov_i 24 13); Execute (x_mov_l 0 16 15); Read 0 0 1; Execute (x_xor_l 40 16 15); Read 0 40 1] /\
      branches t = repeat true 23 ++ [false]
  | None => False
  end.
Proof.
  vm_compute. split; reflexivity.
Qed.
(** Two memories that differ in a word that is not read. *)
Example C68_record_hypotheses :
  let m := c_state [CP 0 0; CW 7] [] [[CW 5; CW 6; CW 8]] in
  let n := c_state [CP 0 0; CW 7] [] [[CW 5; CW 9; CW 8]] in
  let t := [Execute (x_xor_l 0 0 1); Read 0 0 1; Execute (x_mov_s 1 16 0); Write 0 16 1] in
  zmm m /\ alike m n /\ traced_run concrete c_count [x_xor_l 0 0 1; x_mov_s 1 16 0] m = Some (t, c_state [CP 0 0; CW 2] [] [[CW 5; CW 6; CW 2]]) /\
  (forall o k, read_in t o k -> word_at n o k = word_at m o k) /\ word_at n 0 1 <> word_at m 0 1 /\ written_in t 0 2.
Proof.
  cbv zeta. split; [constructor|]. split; [repeat split|]. split; [reflexivity|]. split; [|split; [discriminate|]].
  - intros o k (z & j & [H|[H|[H|[H|[]]]]] & L); try discriminate H. injection H as <- <- <-.
    destruct k as [|k]; [reflexivity|]. exfalso. apply proj2 in L. rewrite Nat2Z.inj_succ in L. revert L. unfold Z.succ.
    apply Z.le_ngt. change (0 + 8 * Z.of_nat 1)%Z with (8 * 1)%Z. apply Z.mul_le_mono_nonneg_l; [discriminate|].
    rewrite <- (Z.add_0_l 1) at 1. apply Z.add_le_mono_r, Nat2Z.is_nonneg.
  - exists 16%Z, 1. split; [cbn; tauto|]. split; [discriminate|reflexivity].
Qed.
(** It does tell runs apart: a program that reads at an address its data chooses, or branches on its data,
    has different records. *)
Example C68_tells_apart :
  traced_run concrete c_count [x_mov_l 0 0 1; x_mov_l 0 1 2] (c_state [CP 0 0; CW 0; CW 0] [] [[CP 0 8; CW 5; CW 6]]) <>
  traced_run concrete c_count [x_mov_l 0 0 1; x_mov_l 0 1 2] (c_state [CP 0 0; CW 0; CW 0] [] [[CP 0 16; CW 5; CW 6]]).
Proof. vm_compute. discriminate. Qed.
