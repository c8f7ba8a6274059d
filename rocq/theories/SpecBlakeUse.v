(** * What BLAKE2b objects return in every program, whether or not it follows the rules of SpecObject.v

    An object stands for eight words.  [nn] is the digest size in octets; [F] is the compression function of RFC 7693. *)
From Coq Require Import NArith Arith List Bool.
From Verif Require Import SpecStream SpecWords SpecBlake2b SpecStore SpecObject.
Import ListNotations.

(** The octets of its block that [digest] takes when told the message has [total] bits. *)
Definition blake_taken (total : N) : nat :=
  if (total =? 0)%N then 0 else let k := N.to_nat ((total / 8) mod 128) in if k =? 0 then 128 else k.
(** The taken octets, and zeros. *)
Definition last_block (b : list N) (total : N) : list N :=
  le_words 8 (firstn (blake_taken total) (le_octets 8 b) ++ repeat 0%N (128 - blake_taken total)).
(** A full block is compressed twice (C21): first as one that is not the last. *)
Definition after_digest (st b : list N) (total : N) : list N :=
  F (if blake_taken total =? 128 then F st b (total / 8) false else st) (last_block b total) (total / 8) true.

Section Spec.
Context (nn : nat).
Definition blake_output (st : list N) : list N := firstn nn (le_octets 8 st).
(** The first word with the parameter word of RFC 7693 added, as in the initial state. *)
Definition with_parameter (st : list N) : list N := set st 0 (N.lxor (get st 0) (N.lxor 0x01010000 (N.of_nat nn))).

(** [None] only if an object is used that does not exist. *)
Fixpoint blake_returns (slots : nat -> option (list N)) (cs : list ocall) : option (list (nat * list N)) :=
  match cs with
  | [] => Some []
  | New i :: cs => blake_returns (put i (with_parameter IV) slots) cs
  | Process i b seen :: cs =>
      match slots i with Some st => blake_returns (put i (F st b ((seen + 7) / 8) false) slots) cs | None => None end
  | Finish i b total :: cs =>
      match slots i with
      | Some st => let st' := after_digest st b total in
                   option_map (cons (i, blake_output st')) (blake_returns (put i st' slots) cs)
      | None => None
      end
  | Reset i :: cs => match slots i with Some _ => blake_returns (put i (with_parameter IV) slots) cs | None => None end
  | Restore i j :: cs =>
      match slots i, slots j with Some st, Some _ => blake_returns (put j (with_parameter st) slots) cs | _, _ => None end
  | Clone i j :: cs => match slots i with Some st => blake_returns (put j st slots) cs | None => None end
  end.
End Spec.

(** The calls that hash a message with the object [i]: whole blocks while more than a block is left, then the rest, at the
    front of a block whose unused part is zero, each with the number of bits up to its end. *)
Fixpoint blake_calls (fuel i from : nat) (m : list N) : list ocall :=
  match fuel with
  | 0 => []
  | S f => if length m <=? 128 then [Finish i (le_words 8 (m ++ repeat 0%N (128 - length m))) (N.of_nat (8 * (from + length m)))]
           else Process i (le_words 8 (firstn 128 m)) (N.of_nat (8 * (from + 128))) :: blake_calls f i (from + 128) (skipn 128 m)
  end.
Definition blake_hash_calls (i : nat) (m : list N) : list ocall := blake_calls (S (length m)) i 0 m.
(** The state after a message, from the state [h] in place of the initial one. *)
Definition blake_state (h m : list N) : list N :=
  F (non_final h 0 (leading_blocks m)) (last (data_blocks m) []) (N.of_nat (length m)) true.
