(** * What SHA-3 and Keccak objects return in every program, whether or not it follows the rules of SpecObject.v

    An object stands for a state of 1600 bits.  [d] is the digest size, [suffix] the bits FIPS 202 puts after the message
    (01 for SHA-3, none for Keccak). *)
From Coq Require Import NArith Arith List Bool.
From Verif Require Import SpecStream SpecWords SpecMDOctets SpecKeccak SpecStore SpecSponge SpecObject.
Import ListNotations.

Section Spec.
Context (d : nat) (suffix : list bool).
Notation rate := (1600 - 2 * d).

(** The octets of a block of 64-bit words, the most significant octet of a word first. *)
Definition block_octets (b : list N) : list N := to_octets true 8 b.
(** Absorbing whole blocks from a state. *)
Definition absorbed_from (S P : list bool) : list bool := fold_left (absorb_block rate) (chunks rate P) S.
(** The octets of its block that [digest] takes when told the message has [total] bits. *)
Definition octets_taken (total : N) : nat :=
  if (total =? 0)%N then 0
  else let k := N.to_nat ((total / 8) mod N.of_nat (rate / 8)) in if k =? 0 then rate / 8 else k.
(** A string with the suffix and pad10*1. *)
Definition padded_bits (M : list bool) : list bool := (M ++ suffix) ++ pad10star1 rate (length (M ++ suffix)).
Definition digest_of (S : list bool) : list N := bits_octets_lsb (squeezed rate d S).
(** What [digest] leaves: the words of the digest, the last one whole, and zeros. *)
Definition left_over (S : list bool) : list bool :=
  let k := 64 * ((d + 63) / 64) in firstn k (sponge_squeeze rate (1 + d / rate) S) ++ repeat false (1600 - k).

(** [None] only if an object is used that does not exist. *)
Fixpoint sponge_returns (slots : nat -> option (list bool)) (cs : list ocall) : option (list (nat * list N)) :=
  match cs with
  | [] => Some []
  | New i :: cs => sponge_returns (put i (repeat false 1600) slots) cs
  | Process i b _ :: cs =>
      match slots i with
      | Some st => sponge_returns (put i (absorb_block rate st (octets_bits_lsb (block_octets b))) slots) cs
      | None => None
      end
  | Finish i b total :: cs =>
      match slots i with
      | Some st =>
          let st' := absorbed_from st (padded_bits (octets_bits_lsb (firstn (octets_taken total) (block_octets b)))) in
          option_map (cons (i, digest_of st')) (sponge_returns (put i (left_over st') slots) cs)
      | None => None
      end
  | Reset i :: cs => match slots i with Some _ => sponge_returns (put i (repeat false 1600) slots) cs | None => None end
  | Restore i j :: cs =>
      match slots i, slots j with Some st, Some _ => sponge_returns (put j st slots) cs | _, _ => None end
  | Clone i j :: cs => match slots i with Some st => sponge_returns (put j st slots) cs | None => None end
  end.

(** The calls that hash a message with the object [i]: whole blocks while more than a block is left, then the rest, at the
    front of a block whose unused part is zero.  [from] octets have been counted before. *)
Definition words_of (os : list N) : list N := to_words true 8 (os ++ repeat 0%N (rate / 8 - length os)).
Fixpoint sponge_calls (fuel i from : nat) (m : list N) : list ocall :=
  match fuel with
  | 0 => []
  | S f => if length m <=? rate / 8 then [Finish i (words_of m) (N.of_nat (8 * (from + length m)))]
           else Process i (words_of (firstn (rate / 8) m)) (N.of_nat (8 * (from + rate / 8))) ::
                sponge_calls f i (from + rate / 8) (skipn (rate / 8) m)
  end.
Definition sponge_hash_calls (i : nat) (m : list N) : list ocall := sponge_calls (S (length m)) i 0 m.
End Spec.

(** [x] added to the front of [m]. *)
Definition xor_front (x m : list N) : list N := map (fun p => N.lxor (fst p) (snd p)) (combine x m) ++ skipn (length x) m.
(** The published function with the suffix: [SHA3_octets d] and [Keccak_octets d]. *)
Definition sponge_function (d : nat) (suffix : list bool) (m : list N) : list N :=
  bits_octets_lsb (keccak_sponge (1600 - 2 * d) (octets_bits_lsb m ++ suffix) d).
