(** * Programs that use the construction objects of a hash directly

    A caller may build the block construction of a hash, give it whole blocks, end the message with [digest], begin anew with
    [reset()], and save the state of one object and put it into another with [reset(state)].  The specification keeps, for
    each object, the octets taken so far; [spent] is an object that has returned a digest and was not reset since. *)
From Coq Require Import NArith Arith List Bool.
From Verif Require Import SpecStream SpecOctets SpecStore.
Import ListNotations.

Inductive ocall :=
| New (i : nat)
| Process (i : nat) (block : list N) (seen : N)      (* process_block(block, seen) *)
| Finish (i : nat) (block : list N) (total : N)      (* digest(block, total) *)
| Reset (i : nat)                                    (* reset() *)
| Restore (from to : nat)                            (* to.reset(from.state()) *)
| Clone (from to : nat).                             (* to = from *)

Inductive phase := taken (message : list N) | spent.

Section Spec.
Context (e : endian) (w r : nat)        (* byte order and width of the words; octets of a block *)
        (counts : bool)                 (* whether process_block uses its second argument *)
        (H : list N -> list N).

(** The digests such a program must be given, with the object each came from.  [None]: the program does not follow the rules,
    which are: use what exists; give whole blocks to process_block, and where it counts the number of bits up to the end of
    the block; give [digest] the last octets of the message, at most a block and at least one unless the message is empty,
    at the front of a block, and the number of bits of the message; reset an object that returned a digest before using it
    again. *)
Fixpoint object_digests (slots : nat -> option phase) (cs : list ocall) : option (list (nat * list N)) :=
  match cs with
  | [] => Some []
  | New i :: cs => object_digests (put i (taken []) slots) cs
  | Process i b seen :: cs =>
      match slots i with
      | Some (taken m) =>
          if negb counts || (seen =? N.of_nat (8 * (length m + r)))%N
          then object_digests (put i (taken (m ++ range_octets e w b)) slots) cs
          else None
      | _ => None
      end
  | Finish i b total :: cs =>
      match slots i with
      | Some (taken m) =>
          let n := N.to_nat (total / 8) - length m in
          if (total =? N.of_nat (8 * (length m + n)))%N && (n <=? r) && ((0 <? n) || (length m =? 0))
          then option_map (cons (i, H (m ++ firstn n (range_octets e w b)))) (object_digests (put i spent slots) cs)
          else None
      | _ => None
      end
  | Reset i :: cs =>
      match slots i with Some _ => object_digests (put i (taken []) slots) cs | None => None end
  | Restore i j :: cs =>
      match slots i, slots j with
      | Some (taken m), Some _ => object_digests (put j (taken m) slots) cs
      | _, _ => None
      end
  | Clone i j :: cs => match slots i with Some p => object_digests (put j p slots) cs | None => None end
  end.
End Spec.

(** The arguments a program can pass: blocks of [words] words of [w] bits, and 64-bit counts. *)
Definition arguments_ok (w words : nat) (c : ocall) : Prop :=
  match c with
  | Process _ b n | Finish _ b n => length b = words /\ Forall (fits w) b /\ (n < 2 ^ 64)%N
  | _ => True
  end.
