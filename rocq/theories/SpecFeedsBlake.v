(** * Specification: BLAKE2b of a message some of whose blocks were forgotten

    What SpecFeeds.v says of the surviving bits does not determine a BLAKE2b digest, as every call of the compression function
    takes the number of octets given so far, and forgotten blocks count.  Here the message is the bit string of all feeds, and
    the calls for the forgotten blocks are left out. *)
From Coq Require Import NArith Arith List Bool.
From Verif Require Import SpecStream SpecWords SpecBlake2b MAcc.
Import ListNotations.

(** The numbers (from 0) of the blocks forgotten: those completed by a word fed at a word boundary when another feed follows.
    [g] is the number of bits given before [fs]. *)
Fixpoint forgotten (w bb : nat) (bits : feed -> list bool) (g : nat) (fs : list feed) : list nat :=
  match fs with
  | [] => []
  | f :: rest =>
      let g' := g + length (bits f) in
      let completed := match f with
                       | FBlock _ _ => false
                       | FWord _ _ => (g mod w =? 0) && (g' mod bb =? 0)
                       end in
      let followed := match rest with [] => false | _ => true end in
      (if completed && followed then [g' / bb - 1] else []) ++ forgotten w bb bits g' rest
  end.

(** RFC 7693, 3.3, the blocks other than the last: those in [lost] are left out. *)
Fixpoint non_final_without (lost : list nat) (h : list N) (i : nat) (d : list (list N)) : list N :=
  match d with
  | [] => h
  | m :: d' => non_final_without lost (if existsb (Nat.eqb i) lost then h else F h m (N.of_nat ((i + 1) * 128)) false) (i + 1) d'
  end.

(** A block's sixteen words: octets most significant bit first, words least significant octet first. *)
Definition words_of_block (b : list bool) : list N := le_words 8 (bits_octets b).

(** As the library computes it: the last block is zero-padded; one that is full is compressed twice (C21). *)
Definition BLAKE2b_without (lost : list nat) (nn : nat) (M : list bool) : list N :=
  let n := length M in
  let full := chunks 1024 M in
  let last_block := if (n mod 1024 =? 0) && negb (n =? 0) then last full []
                    else skipn (1024 * (n / 1024)) M ++ repeat false (1024 - n mod 1024) in
  let h := non_final_without lost (initial_state nn) 0 (map words_of_block full) in
  firstn nn (le_octets 8 (F h (words_of_block last_block) (N.of_nat ((n + 7) / 8)) true)).
