(** * Specification: the Grain LFSR in self-shrinking mode, as the Poseidon paper uses it

    Grassi, Khovratovich, Rechberger, Roy and Schofnegger, "Poseidon: A New Hash Function for Zero-Knowledge
    Proof Systems", appendix on the generation of round constants, and the authors' program
    generate_params_poseidon.sage. *)
From Coq Require Import NArith Arith List Bool.
From Verif Require Import SpecStream.
Import ListNotations.

(** A state is the list b_i, ..., b_(i+79); the next bit is b_(i+80) =
    b_(i+62) + b_(i+51) + b_(i+38) + b_(i+23) + b_(i+13) + b_i. *)
Definition next (s : list bool) : bool :=
  let b i := nth i s false in
  xorb (xorb (xorb (xorb (xorb (b 62) (b 51)) (b 38)) (b 23)) (b 13)) (b 0).
Definition shift (s : list bool) : list bool := tl s ++ [next s].
(** The next [n] bits. *)
Fixpoint raw (n : nat) (s : list bool) : list bool :=
  match n with
  | O => []
  | S n' => next s :: raw n' (shift s)
  end.
(** Bits are taken in pairs; the second is output if the first is 1. *)
Fixpoint shrink (bs : list bool) : list bool :=
  match bs with
  | b1 :: b2 :: r => if b1 then b2 :: shrink r else shrink r
  | _ => []
  end.

(** [w] bits of [v], most significant first, and back. *)
Definition msb_bits (w : nat) (v : N) : list bool := map (fun i => N.testbit v (N.of_nat (w - 1 - i))) (seq 0 w).
Definition num (bs : list bool) : N := fold_left (fun v (b : bool) => (2 * v + (if b then 1 else 0))%N) bs 0%N.

(** The initial state describes the instance; the first 160 bits are discarded. *)
Definition init (field sbox n t RF RP : N) : list bool :=
  msb_bits 2 field ++ msb_bits 4 sbox ++ msb_bits 12 n ++ msb_bits 12 t ++ msb_bits 10 RF ++ msb_bits 10 RP ++
  repeat true 30.
(** The output bits obtained from [len] bits after those 160, and the [n]-bit integers they form. *)
Definition outputs (s : list bool) (len : nat) : list bool := shrink (skipn 160 (raw (160 + len) s)).
Definition integers (s : list bool) (n len : nat) : list N := map num (chunks n (outputs s len)).

(** Round constants: the integers below the modulus. *)
Definition below (p : N) (vs : list N) : list N := filter (fun v => v <? p)%N vs.

(** [rc] and [mds] are the published constants for a prime [p] of [n] bits, S-box x^alpha (coded 0), [t] words,
    [RF] full and [RP] partial rounds: the round constants are the integers below p among the first ones
    ([used]; the last of these is below p), and the matrix is 1 / (x_i + y_j) where the x_i and y_j are the next 2 t
    integers modulo p, which are pairwise different and whose sums x_i + y_j are not zero. *)
Record published (p : N) (n t RF RP : nat) (rc mds : list (list N)) : Prop := {
  pub_rc_shape : length rc = RF + RP /\ Forall (fun row => length row = t) rc;
  pub_mds_shape : length mds = t /\ Forall (fun row => length row = t /\ Forall (fun v => v < p)%N row) mds;
  pub_stream : exists len used last xs ys rest,
    integers (init 1 0 (N.of_nat n) (N.of_nat t) (N.of_nat RF) (N.of_nat RP)) n len = used ++ [last] ++ xs ++ ys ++ rest /\
    (last < p)%N /\ below p (used ++ [last]) = concat rc /\
    length xs = t /\ length ys = t /\ NoDup (map (fun v => v mod p)%N (xs ++ ys)) /\
    forall i j, i < t -> j < t -> (((nth i xs 0 + nth j ys 0) * nth j (nth i mds []) 0) mod p = 1)%N }.
