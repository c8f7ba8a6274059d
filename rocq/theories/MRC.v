(** * Model of Reinforced Concrete

    Files below are in include/nil/crypto3/hash/detail/reinforced_concrete/ unless another one is named.  The field is
    external (crypto3-algebra): the arguments are its ring [F], the conversion of an integer [int], the canonical
    integer of an element [data] and the method [inversed].  % and < on elements and on their .data are those of the
    canonical integers.  algebra::vector and algebra::matrix are lists.  The only specialisation of
    reinforced_concrete_policy is for the scalar field of BLS12-381 (reinforced_concrete_policy.hpp:65-92). *)
From Coq Require Import ZArith Arith List Bool.
From Verif Require Import SpecPoseidon.
Import ListNotations.
Local Open Scope Z_scope.

Section Model.
Context {F : ring} (int : Z -> F) (data : F -> Z) (inversed : F -> F).

(** reinforced_concrete_policy.hpp:71-91. *)
Definition alphas : list F := [int 1; int 3].
Definition betas : list F := [int 2; int 4].
Definition d : nat := 5.
Definition bucket : list F := map int
  [693; 696; 694; 668; 679; 695; 691; 693; 700; 688; 700; 694; 701; 694; 699; 701; 701; 701; 695; 698; 697; 703; 702; 691; 688; 703; 679].
Definition p_min : F := int 659.
(** reinforced_concrete_policy.hpp:48, 52, 56; reinforced_concrete_functions.hpp:57. *)
Definition state_words : nat := 3.
Definition rounds : nat := 3.

(** reinforced_concrete_operators.hpp:68-79. *)
Definition generate_mds_matrix : list (list F) :=
  let circulant := [int 2; int 1; int 1] in
  map (fun i => map (fun j => nth ((j + i) mod state_words)%nat circulant zero) (seq 0 state_words)) (seq 0 state_words).
(** algebra::matvectmul (external): the product of a matrix and a column. *)
Definition matvectmul (m : list (list F)) (v : list F) : list F :=
  map (fun i => sum (map (fun j => mul (nth j (nth i m []) zero) (nth j v zero)) (seq 0 state_words))) (seq 0 state_words).
(** reinforced_concrete_operators.hpp:81-87; [round_constants]: lsfr.round_constants. *)
Definition concrete (round_constants : list F) (A : list F) (round : nat) : list F :=
  let A := matvectmul generate_mds_matrix A in
  map (fun i => add (nth i A zero) (nth (round * state_words + i)%nat round_constants zero)) (seq 0 state_words).
(** reinforced_concrete_operators.hpp:89-96. *)
Definition bricks (A : list F) : list F :=
  let A_0 := nth 0 A zero in
  let A_1 := nth 1 A zero in
  [power A_0 d;
   mul A_1 (add (add (mul A_0 A_0) (mul (nth 0 alphas zero) A_0)) (nth 0 betas zero));
   mul (nth 2 A zero) (add (add (mul A_1 A_1) (mul (nth 1 alphas zero) A_1)) (nth 1 betas zero))].
(** reinforced_concrete_operators.hpp:97-109: the loop from the last bucket to the first; [bs]: the buckets from the
    current one on in this order.  The digits in the order of the loop. *)
Fixpoint decompose_loop (bs : list F) (element sum product : F) : list F :=
  match bs with
  | [] => []
  | b :: r =>
      let x := int (data (mul (sub element sum) (inversed product)) mod data b) in
      x :: decompose_loop r element (add sum (mul x product)) (mul product b)
  end.
Definition decompose (element : F) : list F := rev (decompose_loop (rev bucket) element (int 0) (int 1)).
(** reinforced_concrete_operators.hpp:111-120. *)
Fixpoint compose_loop (bs ys : list F) (comp product : F) : F :=
  match bs, ys with
  | b :: r, y :: t => compose_loop r t (add comp (mul y product)) (mul product b)
  | _, _ => comp
  end.
Definition compose (y_bucket : list F) : F := compose_loop (rev bucket) (rev y_bucket) (int 0) (int 1).
(** reinforced_concrete_operators.hpp:122-136. *)
Definition f (element : F) : F := if data element =? 0 then int 0 else inversed element.
Definition SBox (element : F) : F := if data element <? data p_min then f element else element.
(** reinforced_concrete_operators.hpp:138-147. *)
Definition bars (A : list F) : list F := map (fun a => compose (map SBox (decompose a))) A.
(** reinforced_concrete_functions.hpp:68-86. *)
Definition bricks_concrete (rc A : list F) (i : nat) : list F := concrete rc (bricks A) i.
Definition permute (rc A : list F) : list F :=
  let A := concrete rc A 0 in
  let A := fold_left (bricks_concrete rc) (seq 1 rounds) A in
  let A := bars A in
  let A := concrete rc A (rounds + 1) in
  fold_left (bricks_concrete rc) (seq (rounds + 2) rounds) A.
End Model.
