(** * What an observer of the Keccak assembly's timing sees

    The machine of MAsm.v with a record of every instruction executed, of the address and size of every memory operand and
    of the direction of every branch, in order.  All instructions of MAsm.v take a time that does not depend on the data, on processors whose vendors promise that for
    them (Intel: data operand independent timing; Arm: FEAT_DIT); this is not part of the model. *)
From Coq Require Import NArith ZArith Arith List Bool.
From Verif Require Import MKeccak MAsm MKeccakX86 MKeccakArm MKeccakAvx2 MKeccakAvx512.
Import ListNotations.

Inductive event :=
| Execute (i : instr)
| Read (obj : nat) (off : Z) (words : nat)    (* [words] words of eight bytes from byte [off] of the object *)
| Write (obj : nat) (off : Z) (words : nat)
| Branch (back : bool).                       (* jnz: taken or not *)

(** The memory operand of an instruction: is it written, base register, displacement, words.  A masked AVX-512 operand is
    recorded with all its words. *)
Definition operand (i : instr) : option (bool * nat * Z * nat) :=
  match i with
  | x_mov_l off b _ | x_xor_l off b _ | x_and_l off b _ | a_ldr _ b off => Some (false, b, off, 1)
  | a_ldp _ _ b => Some (false, b, 0%Z, 2)
  | v_pxor_l off b _ _ | v_psllvq off b _ _ | v_psrlvq off b _ _ => Some (false, b, off, 4)
  | z_pxorq_l off b _ _ _ => Some (false, b, off, 8)
  | x_mov_s _ off b | a_str _ b off => Some (true, b, off, 1)
  | a_stp _ _ b => Some (true, b, 0%Z, 2)
  | _ => None
  end.

Section Traced.
Context (A : values) (v_count : A -> option N).

Definition observe (i : instr) (m : machine A) : option (list event) :=
  match operand i with
  | None => Some [Execute i]
  | Some (w, b, off, n) =>
      match get A m b with
      | Some p =>
          match v_to_ptr A p with
          | Some (o, z) => Some [Execute i; (if w then Write else Read) o (z + off)%Z n]
          | None => None
          end
      | None => None
      end
  end.

(** [run] and [loop] of MAsm.v with the record. *)
Fixpoint traced_run (p : list instr) (m : machine A) : option (list event * machine A) :=
  match p with
  | [] => Some ([], m)
  | i :: p' =>
      match observe i m, step A v_count i m with
      | Some e, Some m' =>
          match traced_run p' m' with Some (t, m'') => Some (e ++ t, m'') | None => None end
      | _, _ => None
      end
  end.
Fixpoint traced_loop (fuel : nat) (counter : nat) (body : list instr) (m : machine A) : option (list event * machine A) :=
  match fuel with
  | O => None
  | S fuel' =>
      match traced_run body m with
      | Some (t, m') =>
          match get A m' counter with
          | Some c =>
              match v_zero A c with
              | Some true => Some (t ++ [Branch false], m')
              | Some false =>
                  match traced_loop fuel' counter body m' with
                  | Some (t', m'') => Some (t ++ [Branch true] ++ t', m'')
                  | None => None
                  end
              | None => None
              end
          | None => None
          end
      | None => None
      end
  end.
Definition traced_both (p : list instr) (fuel counter : nat) (body : list instr) (m : machine A) :
  option (list event * machine A) :=
  match traced_run p m with
  | Some (t, m') =>
      match traced_loop fuel counter body m' with Some (t', m'') => Some (t ++ t', m'') | None => None end
  | None => None
  end.
End Traced.

(** [x86_exec], [arm_exec], [avx2_exec] and [avx512_exec] with the record: detail/keccak/keccak_x86_64_impl.hpp:57-407,
    keccak_armv8_impl.hpp:232-316, keccak_avx2_impl.hpp:124-330, keccak_avx512_impl.hpp:82-255. *)
Definition x86_traced (fuel : nat) (rs c0 b0 : list cval) (st : list N) : option (list event * c_machine) :=
  traced_both concrete c_count x86_prologue fuel 13 x86_body (x86_start rs c0 b0 st).
Definition arm_traced (rs stack : list cval) (st : list N) : option (list event * c_machine) :=
  traced_run concrete c_count arm_program (arm_start rs stack st).
Definition avx2_traced (fuel rounds : nat) (rs : list cval) (vs : list (list cval)) (st : list N) :
  option (list event * c_machine) :=
  match avx2_start rounds rs vs st with
  | Some m => traced_both concrete c_count (avx2_prologue rounds) fuel 1 avx2_body m
  | None => None
  end.
Definition avx512_traced (fuel : nat) (rs : list cval) (vs : list (list cval)) (st : list N) :
  option (list event * c_machine) :=
  traced_both concrete c_count avx512_prologue fuel 0 avx512_body (avx512_start avx512_lanes rs vs st).
