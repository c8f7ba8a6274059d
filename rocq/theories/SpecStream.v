(** * Bit streams of words under a byte/bit order

    Specification vocabulary: no code of the library is modelled here.  A word of [w] bits
    ([w] a multiple of 8) is read as a stream of [w] bits; which bit comes first depends on
    the order, as described in docs/pack.md, lines 31-43 of the repository:
    [BOBB] most significant octet first, most significant bit first;
    [LOBB] least significant octet first, most significant bit first;
    [BOLB] most significant octet first, least significant bit first;
    [LOLB] least significant octet first, least significant bit first. *)
From Coq Require Import NArith Arith List Bool.
Import ListNotations.

Inductive endian := BOBB | LOBB | BOLB | LOLB.

(** The order in which the machine stores a wide integer: a little-endian machine. *)
Definition host_order : endian := LOBB.

(** Index, counted from the least significant bit, of the [i]-th bit of the stream. *)
Definition bitpos (e : endian) (w i : nat) : nat :=
  match e with
  | BOBB => w - 1 - i
  | LOBB => 8 * (i / 8) + (7 - i mod 8)
  | BOLB => (w - 8 - 8 * (i / 8)) + i mod 8
  | LOLB => i
  end.

Definition word_stream (e : endian) (w : nat) (x : N) : list bool :=
  map (fun i => N.testbit x (N.of_nat (bitpos e w i))) (seq 0 w).

(** The bit stream of an array of words. *)
Definition stream (e : endian) (w : nat) (ws : list N) : list bool :=
  flat_map (word_stream e w) ws.

(** Number whose binary digits, least significant first, are [l]. *)
Fixpoint N_of_bits (l : list bool) : N :=
  match l with
  | [] => 0%N
  | b :: l' => (N.b2n b + 2 * N_of_bits l')%N
  end.

(** The word whose stream is [s]. *)
Definition stream_word (e : endian) (w : nat) (s : list bool) : N :=
  N_of_bits (map (fun j => nth (bitpos e w j) s false) (seq 0 w)).

(** [m] consecutive pieces of [n] elements. *)
Fixpoint chunk {A} (n m : nat) (l : list A) : list (list A) :=
  match m with
  | 0 => []
  | S m' => firstn n l :: chunk n m' (skipn n l)
  end.

(** All the whole pieces of [n] elements of [l]. *)
Definition chunks {A} (n : nat) (l : list A) : list (list A) := chunk n (length l / n) l.

(** The words whose stream is [s]. *)
Definition words_of_stream (e : endian) (w : nat) (s : list bool) : list N :=
  map (stream_word e w) (chunks w s).

(** Octet strings: an octet is read most significant bit first. *)
Definition octets_bits (os : list N) : list bool := stream BOBB 8 os.
Definition bits_octets (s : list bool) : list N := words_of_stream BOBB 8 s.

(** Values that fit in [w] bits. *)
Definition fits (w : nat) (x : N) : Prop := (x < 2 ^ N.of_nat w)%N.

(** Octets of a wide integer in a byte order. *)
Fixpoint octets_le (n : nat) (x : N) : list N :=
  match n with 0 => [] | S n' => (x mod 256)%N :: octets_le n' (x / 256)%N end.
Definition octets_in_order (e : endian) (n : nat) (x : N) : list N :=
  match e with BOBB => rev (octets_le n x) | _ => octets_le n x end.
