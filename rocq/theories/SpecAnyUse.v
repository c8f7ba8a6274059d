(** * What Merkle-Damgard objects return in every program, whether or not it follows the rules of SpecObject.v

    An object stands for the octets it has chained, always whole blocks: the blocks given to process_block, and what each
    [digest] has put at the end.  Nothing is asked of the counts. *)
From Coq Require Import NArith Arith List Bool.
From Verif Require Import SpecStream SpecWords SpecMD SpecMDOctets SpecStore SpecCollide SpecObject.
Import ListNotations.

Section Spec.
Context (h : published).
Notation r := (word h * block h).

(** The chaining value after whole blocks of octets, from the initial value [iv]. *)
Definition chained (iv : list N) (os : list N) : list N :=
  fold_left (compress h) (map (to_words (big h) (word h)) (chunks r os)) iv.

(** How many octets of its block [digest] takes when it is told the message has [total] bits: none of an empty message,
    otherwise what is left after whole blocks, or a whole block if nothing is left. *)
Definition octets_used (total : N) : nat :=
  if (total =? 0)%N then 0
  else let k := N.to_nat ((total / 8) mod N.of_nat r) in if k =? 0 then r else k.
(** What it puts after them: the marker, zeros to the end of a block less the length field, and [total] as the length. *)
Definition ending (total : N) : list N :=
  [mark h] ++ repeat 0%N (pad_zeros r (octets_used total + 1 + len_field h)) ++
  (let l := octets_le (len_field h) total in if big h then rev l else l).
Definition finished (b : list N) (total : N) : list N :=
  firstn (octets_used total) (to_octets (big h) (word h) b) ++ ending total.

(** [None] only if an object is used that does not exist. *)
Fixpoint returns (slots : nat -> option (list N)) (cs : list ocall) : option (list (nat * list N)) :=
  match cs with
  | [] => Some []
  | New i :: cs => returns (put i [] slots) cs
  | Process i b _ :: cs =>
      match slots i with Some P => returns (put i (P ++ to_octets (big h) (word h) b) slots) cs | None => None end
  | Finish i b total :: cs =>
      match slots i with
      | Some P =>
          let P' := P ++ finished b total in
          option_map (cons (i, output h (chained (init h) P'))) (returns (put i P' slots) cs)
      | None => None
      end
  | Reset i :: cs => match slots i with Some _ => returns (put i [] slots) cs | None => None end
  | Restore i j :: cs =>
      match slots i, slots j with Some P, Some _ => returns (put j P slots) cs | _, _ => None end
  | Clone i j :: cs => match slots i with Some P => returns (put j P slots) cs | None => None end
  end.

(** The calls that hash a message with the object [i], which counts from zero: whole blocks while more than a block is left,
    then the rest, at the front of a block whose unused part is zero. *)
Definition block_of (os : list N) : list N := to_words (big h) (word h) (os ++ repeat 0%N (r - length os)).
Fixpoint message_calls (fuel i : nat) (from : nat) (m : list N) : list ocall :=
  match fuel with
  | 0 => []
  | S f => if length m <=? r then [Finish i (block_of m) (N.of_nat (8 * (from + length m)))]
           else Process i (block_of (firstn r m)) (N.of_nat (8 * (from + r))) :: message_calls f i (from + r) (skipn r m)
  end.
Definition hash_calls (i from : nat) (m : list N) : list ocall := message_calls (S (length m)) i from m.
End Spec.

(** Arguments as a program can pass them, the counts being whole octets. *)
Definition octet_arguments (w words : nat) (c : ocall) : Prop :=
  arguments_ok w words c /\ match c with Finish _ _ n => (n mod 8 = 0)%N | _ => True end.
