(** * Specification: Reinforced Concrete

    Grassi, Khovratovich, Lueftenegger, Rechberger, Schofnegger and Walch, "Reinforced Concrete: A Fast Hash Function for
    Verifiable Computation", section 3, for BLS12-381. *)
From Coq Require Import ZArith Arith List Bool.
From Verif Require Import SpecPoseidon.
Import ListNotations.
Local Open Scope Z_scope.

Section R.
Context {F : ring}.
(** Bricks: (x1^d, x2 (x1^2 + alpha1 x1 + beta1), x3 (x2^2 + alpha2 x2 + beta2)). *)
Definition bricks_of (d : nat) (a1 b1 a2 b2 : F) (s : list F) : list F :=
  match s with
  | [x1; x2; x3] => [power x1 d; mul x2 (add (add (mul x1 x1) (mul a1 x1)) b1); mul x3 (add (add (mul x2 x2) (mul a2 x2)) b2)]
  | _ => []
  end.
(** Concrete: the matrix circ(2, 1, 1) and the round constants. *)
Definition two : F := add one one.
Definition circ_2_1_1 : list (list F) := [[two; one; one]; [one; two; one]; [one; one; two]].
Definition concrete_of (M : list (list F)) (c s : list F) : list F := vadd (mat M s) c.
End R.

(** Bars: digits in a mixed radix, the first one the most significant. *)
Definition digits_value (radices ds : list Z) : Z :=
  fold_left (fun v sd => v * fst sd + snd sd) (combine radices ds) 0.
Definition are_digits (radices ds : list Z) : Prop := Forall2 (fun s d => 0 <= d < s) radices ds.
Definition radices : list Z :=
  [693; 696; 694; 668; 679; 695; 691; 693; 700; 688; 700; 694; 701; 694; 699; 701; 701; 701; 695; 698; 697; 703; 702; 691; 688; 703; 679].

(** The scalar field of BLS12-381, its elements of integers and their canonical integers. *)
Definition Fr : ring := Zp bls12_381_r.
Definition of_Z (z : Z) : Fr := to_zp bls12_381_r z.
Definition to_Z (x : Fr) : Z := proj1_sig x.

(** The permutation: [M] is the matrix, [rc] the constants, three in each of the eight applications of Concrete. *)
Definition rc_permutation {F : ring} (M : list (list F)) (brick bars : list F -> list F) (rc : list F) (s : list F) : list F :=
  let con i s := concrete_of M (firstn 3 (skipn (3 * i) rc)) s in
  let round s i := con i (brick s) in
  fold_left round [5; 6; 7]%nat (con 4%nat (bars (fold_left round [1; 2; 3]%nat (con 0%nat s)))).

(** What an inverse is: only of elements other than zero. *)
Definition inverts {F : ring} (inv : F -> F) : Prop := forall x : F, x <> zero -> mul x (inv x) = one.
