(** * BLAKE2b with counters that are not those of RFC 7693

    [t n] is the counter used after [n] octets.  RFC 7693 has [t n] = n.  As in SpecBlake2b.v, the blocks
    compressed as non-final ones are those the library compresses. *)
From Coq Require Import NArith Arith List Bool.
From Verif Require Import SpecStream SpecWords SpecBlake2b.
Import ListNotations.

Fixpoint non_final_counting (t : nat -> N) (h : list N) (i : nat) (d : list (list N)) : list N :=
  match d with
  | [] => h
  | m :: d' => non_final_counting t (F h m (t ((i + 1) * 128)) false) (i + 1) d'
  end.
Definition BLAKE2b_counting (t : nat -> N) (nn : nat) (os : list N) : list N :=
  firstn nn (le_octets 8
    (F (non_final_counting t (initial_state nn) 0 (leading_blocks os)) (last (data_blocks os) []) (t (length os)) true)).
(** The blocks of [os], none of them final, and then a final block of zeros with the counter 0. *)
Definition BLAKE2b_zero_end (t : nat -> N) (nn : nat) (os : list N) : list N :=
  firstn nn (le_octets 8 (F (non_final_counting t (initial_state nn) 0 (map (le_words 8) (chunks 128 os))) (repeat 0%N 16) 0 true)).
