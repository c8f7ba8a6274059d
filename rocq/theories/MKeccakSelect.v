(** * Which permutation keccak_1600 calls *)
From Coq Require Import NArith Arith List.
From Verif Require Import MKeccak MAsm MKeccakX86 MKeccakArm MKeccakAvx2 MKeccakAvx512.
Import ListNotations.

(** keccak.hpp:62-77, detail/keccak/keccak_finalizer.hpp:80-84 and detail/keccak/keccak_functions.hpp:60-78: what a call
    of the permutation may leave in the state.  The portable code runs on other processors, and everywhere while the
    compiler evaluates a constant; otherwise the assembly of the processor does, with the registers and the
    uninitialised memory it finds.  [rounds] is the register of an operand (property C19).  The AVX-512 code is apart. *)
Inductive platform_result (st : list N) : list N -> Prop :=
| Portable : platform_result st (permute st)
| On_x86_64 rs c0 b0 r : length rs = 16 -> length c0 = 10 -> length b0 = 25 ->
    x86_permute 24 rs c0 b0 st = Some r -> platform_result st r
| On_armv8 rs stack r : length rs = 31 -> length stack = 4 -> arm_permute rs stack st = Some r -> platform_result st r
| On_avx2 rounds rs vs r : rounds < 16 -> ~ In rounds [8; 9; 10] -> length rs = 16 -> length vs = 16 ->
    Forall (fun l => length l = 4) vs -> avx2_permute 24 rounds rs vs st = Some r -> platform_result st r.

(** The AVX-512 code (CRYPTO3_HAS_AVX512): what it leaves in the state; the empty list if it has no result. *)
Definition avx512_result (fuel : nat) (rs : list cval) (vs : list (list N)) (st : list N) : list N :=
  match avx512_permute fuel rs (map (map CW) vs) st with Some r => r | None => [] end.

