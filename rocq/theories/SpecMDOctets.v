(** * Specification: Merkle-Damgard hashing of octet strings

    As published for MD4, MD5, SHA, RIPEMD and Tiger: a marker octet, zero octets up to a length
    field of [lo] octets holding the bit length, blocks of [bw] words of [n] octets, and the first
    [out] octets of the final state.  [big] selects the most significant octet first. *)
From Coq Require Import NArith Arith List Bool.
From Verif Require Import SpecStream SpecWords SpecMD.
Import ListNotations.

Section MDOctets.
Context (big : bool) (n bw lo : nat) (marker : N).
Definition to_words (os : list N) : list N := if big then be_words n os else le_words n os.
Definition to_octets (ws : list N) : list N := if big then be_octets n ws else le_octets n ws.
Definition length_field (os : list N) : list N :=
  let l := octets_le lo (N.of_nat (8 * length os)) in if big then rev l else l.
Definition padded (os : list N) : list N :=
  os ++ [marker] ++ repeat 0%N (pad_zeros (n * bw) (length os + 1 + lo)) ++ length_field os.
Definition md_octets (iv : list N) (comp : list N -> list N -> list N) (out : nat) (os : list N) : list N :=
  firstn out (to_octets (fold_left comp (map to_words (chunks (n * bw) (padded os))) iv)).
End MDOctets.
