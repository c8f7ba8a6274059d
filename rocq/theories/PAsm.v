(** * Properties C17-C20 and C57: the assembly implementations of Keccak-f[1600]

    Model: MAsm.v (the machine), MKeccakX86.v, MKeccakArm.v, MKeccakAvx2.v, MKeccakAvx512.v (the
    instructions, line by line), MKeccak.v (the portable [permute]; C15 says that it is the function of
    FIPS 202).  In every statement the contents of registers and of uninitialised memory before the
    call are arbitrary; [fuel] bounds the number of loop iterations of a run, and a run that needs
    more, or reads outside an object, has no result ([None]). *)
From Coq Require Import NArith ZArith Arith List Bool.
From Verif Require Import SpecStream SpecKeccak MPack MKeccak MAsm MKeccakX86 MKeccakArm MKeccakAvx2 MKeccakAvx512.
From Verif Require LKeccakP LAsmX86 LAsmArm LAsmAvx2 LAsmAvx512 LAsmStmt.
Import ListNotations.

(** C17: whatever the sixteen registers [rs] and the local arrays C and B hold, the x86-64 assembly
    ends after 24 iterations and leaves the state array as the portable code does. *)
Theorem C17_x86_64_portable :
  forall fuel rs c0 b0 st,
  24 <= fuel -> length rs = 16 -> length c0 = 10 -> length b0 = 25 -> block_ok 64 25 st ->
  x86_permute fuel rs c0 b0 st = Some (permute st).
Proof. exact LAsmX86.x86_permute_ok. Qed.
Print Assumptions C17_x86_64_portable.

(** C18: whatever x0-x30 and the 32 bytes below the stack pointer hold, the ARMv8 assembly leaves the
    state array as the portable code does; it uses no more of the stack than those 32 bytes. *)
Theorem C18_armv8_portable :
  forall rs stack st,
  length rs = 31 -> length stack = 4 -> block_ok 64 25 st ->
  arm_permute rs stack st = Some (permute st).
Proof. exact LAsmArm.arm_permute_ok. Qed.
Print Assumptions C18_armv8_portable.

(** C19 is false: the assembly writes r8, r9 and r10 before it reads the operand [rounds], and does not
    tell the compiler.  If the compiler keeps [rounds] in one of them, no run ever has a result: the
    loop counter is then an address. *)
Theorem C19_avx2_operand_overwritten_refuted :
  forall fuel rounds rs vs st,
  In rounds [8; 9; 10] -> avx2_permute fuel rounds rs vs st = None.
Proof. exact LAsmAvx2.avx2_clobbered. Qed.
Print Assumptions C19_avx2_operand_overwritten_refuted.

(** C19 for every other choice of the register for [rounds].  Missing: the three above. *)
Theorem C19_avx2_portable_partial :
  forall fuel rounds rs vs st,
  24 <= fuel -> rounds < 16 -> ~ In rounds [8; 9; 10] ->
  length rs = 16 -> length vs = 16 -> Forall (fun l => length l = 4) vs -> block_ok 64 25 st ->
  avx2_permute fuel rounds rs vs st = Some (permute st).
Proof. exact LAsmAvx2.avx2_permute_ok. Qed.
Print Assumptions C19_avx2_portable_partial.

(** C20 is false, even with the text repaired to be valid assembly (see MKeccakAvx512.v): whatever the
    registers, the masks k1-k5 among them, hold, the result is wrong for some state. *)
Theorem C20_avx512_wrong_refuted :
  forall fuel rs vs,
  length vs = 8 -> Forall (fun l => length l = 8) vs ->
  exists st, block_ok 64 25 st /\ avx512_permute fuel rs (map (map CW) vs) st <> Some (permute st).
Proof. exact LAsmStmt.avx512_wrong. Qed.
Print Assumptions C20_avx512_wrong_refuted.

(** The reason: the words A[i] with i mod 5 = 2, 3 or 4 are put in the lanes 5, 6 and 7, from which
    nothing gets to the lanes the result is read from.  The result ignores 15 of the 25 words. *)
Theorem C20_avx512_ignores_words_refuted :
  forall fuel rs vs st st',
  length vs = 8 -> Forall (fun l => length l = 8) vs ->
  (forall i, i mod 5 < 2 -> nth i st 0%N = nth i st' 0%N) ->
  avx512_permute fuel rs (map (map CW) vs) st = avx512_permute fuel rs (map (map CW) vs) st'.
Proof. exact LAsmAvx512.avx512_independent. Qed.
Print Assumptions C20_avx512_ignores_words_refuted.

(** What is true: the loop itself performs the 24 rounds, two in an iteration, if it is started with
    the words of each plane in the lanes 0-4 and the masks 1, 2, 4, 8, 16 in k1-k5.  Missing: the code
    that would bring this about; [permute] uses other lanes and leaves the masks unset. *)
Theorem C20_avx512_loop_partial :
  forall fuel rs vs st,
  12 <= fuel -> length rs = 24 -> firstn 5 (skipn 17 rs) = map CW [1; 2; 4; 8; 16]%N ->
  length vs = 8 -> Forall (fun l => length l = 8) vs -> block_ok 64 25 st ->
  exists m,
    avx512_exec fuel
      [[Some 0; Some 1; Some 2; Some 3; Some 4; None; None; None];
       [Some 5; Some 6; Some 7; Some 8; Some 9; None; None; None];
       [Some 10; Some 11; Some 12; Some 13; Some 14; None; None; None];
       [Some 15; Some 16; Some 17; Some 18; Some 19; None; None; None];
       [Some 20; Some 21; Some 22; Some 23; Some 24; None; None; None]] rs vs st = Some m /\
    avx512_read m = Some (permute st).
Proof. exact LAsmAvx512.avx512_loop_ok. Qed.
Print Assumptions C20_avx512_loop_partial.

(** C57: an assembly statement changes only the registers it declares.  True of ARMv8: x0-x30, the
    stack pointer (31) and the operand [A] (32) keep their contents unless they are on the clobber
    list of lines 312-315. *)
Theorem C57_armv8_registers_partial :
  forall rs stack st,
  length rs = 31 -> length stack = 4 -> block_ok 64 25 st ->
  exists m, arm_exec rs stack st = Some m /\
    forall r, r < 33 ->
    ~ In r [25; 26; 27; 28; 0; 2; 3; 4; 5; 6; 7; 8; 9; 10; 11; 12; 13; 14; 15; 16; 17; 30; 19; 20; 21; 22; 23; 24] ->
    get concrete m r = get concrete (arm_start rs stack st) r.
Proof. exact LAsmStmt.arm_kept. Qed.
Print Assumptions C57_armv8_registers_partial.

(** False of x86-64: the operand [c], register 19 of the model, is an input only, but it has moved to
    the end of the table.  A compiler that relies on the declaration and runs the assembly again with
    its operands still in place gets no result: the first round constant is read past the table. *)
Theorem C57_x86_64_operand_changed_refuted :
  forall fuel fuel' rs c0 b0 st,
  24 <= fuel -> length rs = 16 -> length c0 = 10 -> length b0 = 25 -> block_ok 64 25 st ->
  exists m, x86_exec fuel rs c0 b0 st = Some m /\
    get concrete (x86_start rs c0 b0 st) 19 = Some (CP 3 0) /\ get concrete m 19 = Some (CP 3 192) /\
    x86_again fuel' m = None.
Proof. exact LAsmStmt.x86_again_fails. Qed.
Print Assumptions C57_x86_64_operand_changed_refuted.

(** All other registers outside the clobber list are kept. *)
Theorem C57_x86_64_registers_partial :
  forall fuel rs c0 b0 st,
  24 <= fuel -> length rs = 16 -> length c0 = 10 -> length b0 = 25 -> block_ok 64 25 st ->
  exists m, x86_exec fuel rs c0 b0 st = Some m /\
    forall r, r < 20 -> ~ In r [8; 9; 10; 11; 12; 13; 15] -> r <> 19 ->
    get concrete m r = get concrete (x86_start rs c0 b0 st) r.
Proof. exact LAsmStmt.x86_kept. Qed.
Print Assumptions C57_x86_64_registers_partial.

(** False of AVX2: r8, r9 and r10, which are not on the clobber list, are overwritten whatever they
    held. *)
Theorem C57_avx2_registers_changed_refuted :
  forall fuel rounds rs vs st,
  24 <= fuel -> rounds < 16 -> ~ In rounds [8; 9; 10] ->
  length rs = 16 -> length vs = 16 -> Forall (fun l => length l = 4) vs -> block_ok 64 25 st ->
  exists m, avx2_exec fuel rounds rs vs st = Some m /\
    map (get concrete m) [8; 9; 10] = [Some (CP 0 0); Some (CP 1 0); Some (CP 2 768)].
Proof. exact LAsmStmt.avx2_not_kept. Qed.
Print Assumptions C57_avx2_registers_changed_refuted.

Theorem C57_avx2_registers_partial :
  forall fuel rounds rs vs st,
  24 <= fuel -> rounds < 16 -> ~ In rounds [8; 9; 10] ->
  length rs = 16 -> length vs = 16 -> Forall (fun l => length l = 4) vs -> block_ok 64 25 st ->
  exists m0 m, avx2_start rounds rs vs st = Some m0 /\ avx2_exec fuel rounds rs vs st = Some m /\
    (forall r, ~ In r [1; 8; 9; 10] -> get concrete m r = get concrete m0 r) /\
    get concrete m 8 = Some (CP 0 0) /\ get concrete m 9 = Some (CP 1 0) /\ get concrete m 10 = Some (CP 2 768).
Proof. exact LAsmAvx2.avx2_registers. Qed.
Print Assumptions C57_avx2_registers_partial.

Example C17_C20_hypotheses :
  block_ok 64 25 (map N.of_nat (seq 1 25)) /\ length (repeat (CP 7 0) 16) = 16 /\
  x86_permute 24 (repeat (CW 9) 16) (repeat (CW 3) 10) (repeat (CW 4) 25) (map N.of_nat (seq 1 25)) =
    Some (permute (map N.of_nat (seq 1 25))) /\
  avx2_permute 24 8 (repeat (CW 9) 16) (repeat (repeat (CW 3) 4) 16) (map N.of_nat (seq 1 25)) = None.
Proof. exact LAsmStmt.asm_example. Qed.
(** The other implementations, run from arbitrary registers, [rounds] in register 6 for AVX2. *)
Example C18_C19_run :
  let st := map N.of_nat (seq 1 25) in
  arm_permute (repeat (CW 9) 31) (repeat (CW 3) 4) st = Some (permute st) /\
  ~ In 6 [8; 9; 10] /\
  avx2_permute 24 6 (repeat (CW 9) 16) (repeat (repeat (CW 3) 4) 16) st = Some (permute st) /\
  permute st <> st.
Proof. exact LAsmStmt.asm_example_2. Qed.
