(** * Specification: what a record of MTiming.v tells *)
From Coq Require Import NArith ZArith Arith List Bool.
From Verif Require Import MAsm MTiming.
Import ListNotations.

(** Word [k] of an object, and the words an access of [n] words from byte [z] touches. *)
Definition word_at {A : values} (m : machine A) (o k : nat) : option A :=
  match nth_error (objects A m) o with Some l => nth_error l k | None => None end.
Definition covers (z : Z) (n k : nat) : Prop := (z <= 8 * Z.of_nat k < z + 8 * Z.of_nat n)%Z.
Definition read_in (t : list event) (o k : nat) : Prop := exists z n, In (Read o z n) t /\ covers z n k.
Definition written_in (t : list event) (o k : nat) : Prop := exists z n, In (Write o z n) t /\ covers z n k.

(** The instructions and the branches of a record. *)
Definition executed (t : list event) : list instr := flat_map (fun e => match e with Execute i => [i] | _ => [] end) t.
Definition branches (t : list event) : list bool := flat_map (fun e => match e with Branch b => [b] | _ => [] end) t.

(** Machines with the same registers and with objects of the same sizes. *)
Definition alike {A : values} (m n : machine A) : Prop :=
  regs A n = regs A m /\ vregs A n = vregs A m /\ map (@length A) (objects A n) = map (@length A) (objects A m).
(** No vector register is wider than 512 bits. *)
Definition zmm {A : values} (m : machine A) : Prop := Forall (fun v => length v <= 8) (vregs A m).
