(** * A machine for the instructions of the Keccak assembly

    The inline assembly of detail/keccak/keccak_x86_64_impl.hpp, keccak_armv8_impl.hpp,
    keccak_avx2_impl.hpp and keccak_avx512_impl.hpp uses the few dozen instruction forms below.
    Their meaning is that of the Intel and Arm architecture manuals on 64-bit registers, 256-bit and
    512-bit vector registers (four and eight 64-bit lanes) and memory made of separate objects; processor flags are modelled only where an
    instruction reads them ([jnz] after [dec]).  A pointer is an object and a byte offset; an access
    outside an object, a misaligned access, and arithmetic on a pointer as if it were data have no
    result.

    The interpreter is written over an arbitrary set of values with partial operations so that one
    definition serves for running ([concrete]) and for the symbolic execution in the proofs. *)
From Coq Require Import NArith ZArith Arith List Bool.
From Verif Require Import MKeccak.
Import ListNotations.

(** Rotation to the right, the [ror] of ARMv8. *)
Definition rotr64 (k x : N) : N := N.lor (N.shiftr x k) (N.shiftl x (64 - k) mod 2 ^ 64)%N.

(** What the interpreter needs of a value: 64-bit operations, and pointers. *)
Record values := {
  V :> Type;
  v_word : N -> V;                       (* a 64-bit constant *)
  v_ptr : nat -> Z -> V;                 (* object and byte offset *)
  v_to_ptr : V -> option (nat * Z);
  v_zero : V -> option bool;             (* is it zero? *)
  v_dec : V -> option V;                 (* minus one, modulo 2^64 *)
  v_movk : N -> N -> V -> option V;      (* replace 16 bits *)
  v_not : V -> option V;
  v_rol : N -> V -> option V;
  v_ror : N -> V -> option V;
  v_shl : N -> V -> option V;
  v_shr : N -> V -> option V;
  v_xor : V -> V -> option V;
  v_and : V -> V -> option V;
  v_or : V -> V -> option V;
  v_add : V -> V -> option V
}.

(** The values of a run: words and pointers. *)
Inductive cval := CW (w : N) | CP (obj : nat) (off : Z).

Definition word1 (f : N -> N) (x : cval) : option cval :=
  match x with CW a => Some (CW (f a)) | CP _ _ => None end.
Definition word2 (f : N -> N -> N) (x y : cval) : option cval :=
  match x, y with CW a, CW b => Some (CW (f a b)) | _, _ => None end.

Local Open Scope N_scope.

Definition concrete : values := {|
  V := cval;
  v_word := fun n => CW (n mod 2 ^ 64);
  v_ptr := CP;
  v_to_ptr := fun x => match x with CP o z => Some (o, z) | CW _ => None end;
  v_zero := fun x => Some (match x with CW a => a =? 0 | CP _ _ => false end);
  v_dec := fun x => Some (match x with CW a => CW ((a + (2 ^ 64 - 1)) mod 2 ^ 64) | CP o z => CP o (z - 1) end);
  v_movk := fun imm sh =>
    word1 (fun a => N.lor (N.ldiff a (N.shiftl 0xFFFF sh)) (N.shiftl imm sh));
  v_not := word1 not64;
  v_rol := fun k => word1 (rotl 64 k);
  v_ror := fun k => word1 (rotr64 k);
  v_shl := fun k => word1 (fun a => N.shiftl a k mod 2 ^ 64);
  v_shr := fun k => word1 (fun a => N.shiftr a k);
  v_xor := word2 N.lxor;
  v_and := word2 N.land;
  v_or := word2 N.lor;
  v_add := word2 (fun a b => (a + b) mod 2 ^ 64)
|}.

Local Close Scope N_scope.

(** ** Instructions (operands in the order of the source text) *)
Inductive instr :=
(* x86-64, AT&T order: the destination is last *)
| x_mov_i (imm : N) (d : nat)                       (* mov $imm, d *)
| x_mov (s d : nat)                                 (* mov s, d *)
| x_mov_l (off : Z) (b d : nat)                     (* mov off(b), d *)
| x_mov_s (s : nat) (off : Z) (b : nat)             (* mov s, off(b) *)
| x_xor (s d : nat)
| x_xor_l (off : Z) (b d : nat)
| x_and_l (off : Z) (b d : nat)
| x_not (d : nat)
| x_rol (k : N) (d : nat)
| x_lea (off : Z) (b d : nat)                       (* lea off(b), d *)
| x_lea_o (obj d : nat)                             (* lea obj, d: the address of an object *)
| x_dec (d : nat)
(* ARMv8: the destination is first *)
| a_ldr (d b : nat) (off : Z)                       (* ldr d, [b, #off] *)
| a_str (s b : nat) (off : Z)                       (* str s, [b, #off] *)
| a_ldp (d1 d2 b : nat)                             (* ldp d1, d2, [b] *)
| a_stp (s1 s2 b : nat)                             (* stp s1, s2, [b] *)
| a_eor (d a b : nat)
| a_eor_ror (d a b : nat) (k : N)                   (* eor d, a, b, ror#k *)
| a_bic (d a b : nat)                               (* d = a and not b *)
| a_ror (d a : nat) (k : N)
| a_mov (d a : nat)
| a_movz (d : nat) (imm : N)
| a_movk (d : nat) (imm sh : N)                     (* movk d, imm, lsl sh *)
| a_add (d a : nat) (z : Z)                         (* add / sub d, a, #z on a pointer *)
(* AVX2, AT&T order *)
| v_pshufd (imm : N) (s d : nat)
| v_pxor (s2 s1 d : nat)
| v_pxor_l (off : Z) (b s1 d : nat)
| v_por (s2 s1 d : nat)
| v_pandn (s2 s1 d : nat)                           (* not s1 and s2 *)
| v_paddq (s2 s1 d : nat)
| v_permq (imm : N) (s d : nat)
| v_psrlq (k : N) (s d : nat)
| v_psllvq (off : Z) (b s d : nat)                  (* shift counts in memory *)
| v_psrlvq (off : Z) (b s d : nat)
| v_psrldq (k : N) (s d : nat)                      (* bytes, in each 128-bit half *)
| v_pblendd (imm : N) (s2 s1 d : nat)               (* dword i of s2 where bit i is set *)
(* AVX-512, AT&T order; the mask register k1 is general register 17, k2 is 18, and so on *)
| z_mov (s d : nat)                                 (* vmovdqa64 s, d *)
| z_ternlog (imm : N) (s3 s2 d : nat)               (* vpternlogq $imm, s3, s2, d *)
| z_prolq (k : N) (s d : nat)                       (* vprolq $k, s, d *)
| z_permq (s idx d : nat)                           (* vpermq s, idx, d: lane i of d is lane idx[i] of s *)
| z_prolvq (cnt s d : nat)                          (* vprolvq cnt, s, d *)
| z_pxorq_l (off : Z) (b s d k : nat)               (* vpxorq off(b), s, d{k} *)
| z_blendm (s2 s1 d k : nat).                       (* vpblendmq s2, s1, d{k}: lane i of s2 where bit i is set *)

Section Machine.
Context (A : values).

Record machine := { regs : list A; vregs : list (list A); objects : list (list A) }.

Fixpoint upd {T} (l : list T) (i : nat) (x : T) : option (list T) :=
  match l, i with
  | [], _ => None
  | _ :: r, O => Some (x :: r)
  | y :: r, S i' => match upd r i' x with Some r' => Some (y :: r') | None => None end
  end.

Definition get (m : machine) (r : nat) : option A := nth_error (regs m) r.
Definition set (m : machine) (r : nat) (x : A) : option machine :=
  match upd (regs m) r x with
  | Some rs => Some {| regs := rs; vregs := vregs m; objects := objects m |}
  | None => None
  end.
Definition getv (m : machine) (r : nat) : option (list A) := nth_error (vregs m) r.
Definition setv (m : machine) (r : nat) (x : list A) : option machine :=
  match upd (vregs m) r x with
  | Some vs => Some {| regs := regs m; vregs := vs; objects := objects m |}
  | None => None
  end.

(** The 64-bit word of an object that [off] bytes beyond the pointer in register [b] is. *)
Definition cell (m : machine) (b : nat) (off : Z) : option (nat * nat) :=
  match get m b with
  | Some p =>
      match v_to_ptr A p with
      | Some (o, z) =>
          let a := (z + off)%Z in
          if ((0 <=? a) && (a mod 8 =? 0))%Z then Some (o, Z.to_nat (a / 8)) else None
      | None => None
      end
  | None => None
  end.
Definition load (m : machine) (b : nat) (off : Z) : option A :=
  match cell m b off with
  | Some (o, i) => match nth_error (objects m) o with Some l => nth_error l i | None => None end
  | None => None
  end.
Definition store (m : machine) (b : nat) (off : Z) (x : A) : option machine :=
  match cell m b off with
  | Some (o, i) =>
      match nth_error (objects m) o with
      | Some l =>
          match upd l i x with
          | Some l' =>
              match upd (objects m) o l' with
              | Some os => Some {| regs := regs m; vregs := vregs m; objects := os |}
              | None => None
              end
          | None => None
          end
      | None => None
      end
  | None => None
  end.
Definition loadv (m : machine) (b : nat) (off : Z) : option (list A) :=
  match load m b off, load m b (off + 8), load m b (off + 16), load m b (off + 24) with
  | Some x0, Some x1, Some x2, Some x3 => Some [x0; x1; x2; x3]
  | _, _, _, _ => None
  end.

Definition bind {T U} (o : option T) (f : T -> option U) : option U :=
  match o with Some x => f x | None => None end.
Notation "x <- o ; f" := (bind o (fun x => f)) (at level 100, o at next level, right associativity).

Fixpoint lanes1 (f : A -> option A) (x : list A) : option (list A) :=
  match x with
  | [] => Some []
  | a :: x' => r <- f a; rs <- lanes1 f x'; Some (r :: rs)
  end.
Fixpoint lanes2 {T} (f : T -> A -> option A) (x : list T) (y : list A) : option (list A) :=
  match x, y with
  | [], [] => Some []
  | a :: x', b :: y' => r <- f a b; rs <- lanes2 f x' y'; Some (r :: rs)
  | _, _ => None
  end.

(** Bits 2i and 2i+1 of an immediate, the selector of [vpermq] and [vpshufd]. *)
Definition sel (imm : N) (i : N) : nat := N.to_nat (N.land (N.shiftr imm (2 * i)) 3).

Definition pick (x : list A) (is : list nat) : option (list A) :=
  let fix go is := match is with
                   | [] => Some []
                   | i :: is' => a <- nth_error x i; r <- go is'; Some (a :: r)
                   end in go is.

(** The shift counts of [vpsllvq] and [vpsrlvq] are data; a count is a constant here because every
    use in the code takes it from a constant table.  [v_count] reads one. *)
Context (v_count : A -> option N).

Definition shift_by (f : N -> A -> option A) (c x : A) : option A := k <- v_count c; f k x.

Fixpoint counts (x : list A) : option (list N) :=
  match x with
  | [] => Some []
  | a :: x' => k <- v_count a; r <- counts x'; Some (k :: r)
  end.

(** Masked by [mask]: lane i is [x] xor memory where bit i is set, otherwise what the destination [d]
    had; lanes not selected are not read from memory. *)
Fixpoint masked_xor (m : machine) (b : nat) (off : Z) (mask : N) (x d : list A) : option (list A) :=
  match x, d with
  | [], [] => Some []
  | a :: x', c :: d' =>
      r <- (if N.testbit mask 0 then y <- load m b off; v_xor A a y else Some c);
      rs <- masked_xor m b (off + 8) (N.div2 mask) x' d'; Some (r :: rs)
  | _, _ => None
  end.

Fixpoint blend (mask : N) (x y : list A) : option (list A) :=
  match x, y with
  | [], [] => Some []
  | a :: x', b :: y' => r <- blend (N.div2 mask) x' y'; Some ((if N.testbit mask 0 then b else a) :: r)
  | _, _ => None
  end.

Definition step (i : instr) (m : machine) : option machine :=
  match i with
  | x_mov_i imm d | a_movz d imm => set m d (v_word A imm)
  | x_mov s d => x <- get m s; set m d x
  | x_mov_l off b d => x <- load m b off; set m d x
  | x_mov_s s off b => x <- get m s; store m b off x
  | x_xor s d => x <- get m s; y <- get m d; r <- v_xor A y x; set m d r
  | x_xor_l off b d => x <- load m b off; y <- get m d; r <- v_xor A y x; set m d r
  | x_and_l off b d => x <- load m b off; y <- get m d; r <- v_and A y x; set m d r
  | x_not d => y <- get m d; r <- v_not A y; set m d r
  | x_rol k d => y <- get m d; r <- v_rol A k y; set m d r
  | x_lea off b d => p <- get m b; oz <- v_to_ptr A p; set m d (v_ptr A (fst oz) (snd oz + off))
  | x_lea_o obj d => set m d (v_ptr A obj 0)
  | x_dec d => y <- get m d; r <- v_dec A y; set m d r
  | a_ldr d b off => x <- load m b off; set m d x
  | a_str s b off => x <- get m s; store m b off x
  | a_ldp d1 d2 b => x <- load m b 0; y <- load m b 8; m' <- set m d1 x; set m' d2 y
  | a_stp s1 s2 b => x <- get m s1; y <- get m s2; m' <- store m b 0 x; store m' b 8 y
  | a_eor d a b => x <- get m a; y <- get m b; r <- v_xor A x y; set m d r
  | a_eor_ror d a b k => x <- get m a; y <- get m b; y' <- v_ror A k y; r <- v_xor A x y'; set m d r
  | a_bic d a b => x <- get m a; y <- get m b; y' <- v_not A y; r <- v_and A x y'; set m d r
  | a_ror d a k => x <- get m a; r <- v_ror A k x; set m d r
  | a_mov d a => x <- get m a; set m d x
  | a_movk d imm sh => x <- get m d; r <- v_movk A imm sh x; set m d r
  | a_add d a z => p <- get m a; oz <- v_to_ptr A p; set m d (v_ptr A (fst oz) (snd oz + z))
  | v_pshufd imm s d =>
      (* only the selectors that move whole quadwords: each pair of fields is (2i, 2i+1) *)
      x <- getv m s;
      let i := Nat.div2 (sel imm 0) in let j := Nat.div2 (sel imm 2) in
      if (Nat.eqb (sel imm 0) (2 * i) && Nat.eqb (sel imm 1) (2 * i + 1) &&
          Nat.eqb (sel imm 2) (2 * j) && Nat.eqb (sel imm 3) (2 * j + 1))%bool
      then r <- pick x [i; j; 2 + i; 2 + j]; setv m d r else None
  | v_pxor s2 s1 d => x <- getv m s1; y <- getv m s2; r <- lanes2 (v_xor A) x y; setv m d r
  | v_pxor_l off b s1 d => x <- getv m s1; y <- loadv m b off; r <- lanes2 (v_xor A) x y; setv m d r
  | v_por s2 s1 d => x <- getv m s1; y <- getv m s2; r <- lanes2 (v_or A) x y; setv m d r
  | v_pandn s2 s1 d =>
      x <- getv m s1; y <- getv m s2; x' <- lanes1 (v_not A) x; r <- lanes2 (v_and A) x' y; setv m d r
  | v_paddq s2 s1 d => x <- getv m s1; y <- getv m s2; r <- lanes2 (v_add A) x y; setv m d r
  | v_permq imm s d => x <- getv m s; r <- pick x [sel imm 0; sel imm 1; sel imm 2; sel imm 3]; setv m d r
  | v_psrlq k s d => x <- getv m s; r <- lanes1 (v_shr A k) x; setv m d r
  | v_psllvq off b s d => x <- getv m s; c <- loadv m b off; r <- lanes2 (shift_by (v_shl A)) c x; setv m d r
  | v_psrlvq off b s d => x <- getv m s; c <- loadv m b off; r <- lanes2 (shift_by (v_shr A)) c x; setv m d r
  | v_psrldq k s d =>
      (* only the shift by eight bytes *)
      x <- getv m s; if (k =? 8)%N then
        match x with [x0; x1; x2; x3] => setv m d [x1; v_word A 0; x3; v_word A 0] | _ => None end
      else None
  | v_pblendd imm s2 s1 d =>
      (* only the masks that select whole quadwords *)
      x <- getv m s1; y <- getv m s2;
      let q i := N.testbit imm (2 * i) in
      if (eqb (q 0%N) (N.testbit imm 1) && eqb (q 1%N) (N.testbit imm 3) &&
          eqb (q 2%N) (N.testbit imm 5) && eqb (q 3%N) (N.testbit imm 7))%bool
      then r <- pick (x ++ y) [if q 0%N then 4 else 0; if q 1%N then 5 else 1; if q 2%N then 6 else 2; if q 3%N then 7 else 3];
           setv m d r
      else None
  | z_mov s d => x <- getv m s; setv m d x
  | z_ternlog imm s3 s2 d =>
      (* only the two functions used: exclusive or of all three, and d xor (not s2 and s3) *)
      x <- getv m d; y <- getv m s2; z <- getv m s3;
      if (imm =? 0x96)%N then t <- lanes2 (v_xor A) x y; r <- lanes2 (v_xor A) t z; setv m d r
      else if (imm =? 0xD2)%N then
        y' <- lanes1 (v_not A) y; t <- lanes2 (v_and A) y' z; r <- lanes2 (v_xor A) x t; setv m d r
      else None
  | z_prolq k s d => x <- getv m s; r <- lanes1 (v_rol A k) x; setv m d r
  | z_permq s idx d =>
      x <- getv m s; i <- getv m idx; c <- counts i; r <- pick x (map (fun k => N.to_nat (k mod 8)) c); setv m d r
  | z_prolvq cnt s d =>
      x <- getv m s; c <- getv m cnt; r <- lanes2 (shift_by (fun k => v_rol A (k mod 64))) c x; setv m d r
  | z_pxorq_l off b s d k =>
      x <- getv m s; y <- getv m d; q <- get m k; mask <- v_count q; r <- masked_xor m b off mask x y; setv m d r
  | z_blendm s2 s1 d k =>
      x <- getv m s1; y <- getv m s2; q <- get m k; mask <- v_count q; r <- blend mask x y; setv m d r
  end.

Fixpoint run (p : list instr) (m : machine) : option machine :=
  match p with
  | [] => Some m
  | i :: p' => m' <- step i m; run p' m'
  end.

(** "1: body; dec counter; jnz 1b", [body] here including the [dec]: again unless the counter is
    zero.  [fuel] bounds the number of iterations; without enough of it there is no result. *)
Fixpoint loop (fuel : nat) (counter : nat) (body : list instr) (m : machine) : option machine :=
  match fuel with
  | O => None
  | S fuel' =>
      m' <- run body m; c <- get m' counter; z <- v_zero A c;
      if (z : bool) then Some m' else loop fuel' counter body m'
  end.

End Machine.

(** A shift count of a run. *)
Definition c_count (x : cval) : option N := match x with CW a => Some a | CP _ _ => None end.

Definition c_machine := machine concrete.
Definition c_state (rs : list cval) (vs os : list (list cval)) : c_machine := Build_machine concrete rs vs os.
Definition c_run : list instr -> c_machine -> option c_machine := run concrete c_count.
Definition c_loop : nat -> nat -> list instr -> c_machine -> option c_machine := loop concrete c_count.

(** The words of a list of values. *)
Fixpoint words_of (l : list cval) : option (list N) :=
  match l with
  | [] => Some []
  | CW a :: l' => match words_of l' with Some r => Some (a :: r) | None => None end
  | CP _ _ :: _ => None
  end.
