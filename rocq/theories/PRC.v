(** * Property C43: Reinforced Concrete

    Specification: SpecRC.v; [Fr] are the integers modulo the order of BLS12-381's scalar field, [of_Z] and [to_Z] the
    conversions.  Model: MRC.v; its field arguments are those of [Fr], and [inv] is any function that inverts ([inverts]). *)
From Coq Require Import ZArith Arith List Bool.
From Verif Require Import SpecPoseidon SpecRC MRC.
From Verif Require LRCStmt.
Import ListNotations.
Local Open Scope Z_scope.

(** There is an inversion. *)
Example C43_hypotheses : exists inv : Fr -> Fr, inverts inv.
Proof. exists LRCStmt.inverse_fn. exact LRCStmt.inverse_fn_ok. Qed.

(** C43: decompose gives the digits of the element in the mixed radix, the only ones there are, ... *)
Theorem C43_decompose :
  forall inv, inverts inv -> forall e : Fr,
  exists ds, decompose of_Z to_Z inv e = map of_Z ds /\ are_digits radices ds /\ digits_value radices ds = to_Z e.
Proof. exact LRCStmt.decompose_digits. Qed.
Print Assumptions C43_decompose.
Theorem C43_digits_unique :
  forall inv, inverts inv -> forall (e : Fr) ds, are_digits radices ds -> digits_value radices ds = to_Z e ->
  decompose of_Z to_Z inv e = map of_Z ds.
Proof. exact LRCStmt.decompose_unique. Qed.
Print Assumptions C43_digits_unique.
(** ... and compose gives it back. *)
Theorem C43_compose_decompose :
  forall inv, inverts inv -> forall e : Fr, compose of_Z (decompose of_Z to_Z inv e) = e.
Proof. exact LRCStmt.compose_decompose. Qed.
Print Assumptions C43_compose_decompose.

(** C43: Bricks is the specified function and a bijection of the states of three elements; so is Concrete, for every
    list of round constants and every round, with this matrix. *)
Theorem C43_bricks :
  forall A : list Fr, length A = 3%nat -> bricks of_Z A = bricks_of 5 (of_Z 1) (of_Z 2) (of_Z 3) (of_Z 4) A.
Proof. exact LRCStmt.bricks_is_spec. Qed.
Print Assumptions C43_bricks.
Theorem C43_bricks_bijection : bijection_of (fun A : list Fr => length A = 3%nat) (bricks of_Z).
Proof. exact LRCStmt.bricks_bijective. Qed.
Print Assumptions C43_bricks_bijection.
Theorem C43_concrete :
  forall (rc A : list Fr) i, length A = 3%nat -> (3 * i + 3 <= length rc)%nat ->
  concrete of_Z rc A i =
  concrete_of [[of_Z 2; of_Z 1; of_Z 1]; [of_Z 1; of_Z 1; of_Z 2]; [of_Z 1; of_Z 2; of_Z 1]] (firstn 3 (skipn (3 * i) rc)) A.
Proof. exact LRCStmt.concrete_is_spec. Qed.
Print Assumptions C43_concrete.
Theorem C43_concrete_bijection :
  forall (rc : list Fr) i, bijection_of (fun A : list Fr => length A = 3%nat) (fun A => concrete of_Z rc A i).
Proof. exact LRCStmt.concrete_bijective. Qed.
Print Assumptions C43_concrete_bijection.
(** The matrix is not the published one (its last two rows are exchanged): whatever the round constants, Concrete differs
    from the published one on some state. *)
Theorem C43_matrix_refuted :
  forall (rc : list Fr) i, (3 * i + 3 <= length rc)%nat ->
  exists A, length A = 3%nat /\ concrete of_Z rc A i <> concrete_of circ_2_1_1 (firstn 3 (skipn (3 * i) rc)) A.
Proof. exact LRCStmt.concrete_not_published. Qed.
Print Assumptions C43_matrix_refuted.

(** C43: Bars replaces each digit below 659 other than 0 by its inverse in the large field, not modulo 659... *)
Theorem C43_bars_partial :
  forall inv, inverts inv -> forall A : list Fr,
  let s x := if x <? 659 then if x =? 0 then 0 else to_Z (inv (of_Z x)) else x in
  exists Ds, Forall2 (fun e ds => are_digits radices ds /\ digits_value radices ds = to_Z e) A Ds /\
    bars of_Z to_Z inv A = map (fun ds => of_Z (digits_value radices (map s ds))) Ds.
Proof. exact LRCStmt.bars_any. Qed.
Print Assumptions C43_bars_partial.
(** ... so that "each S-box maps its digits to digits" is false: a digit of every radix is mapped outside all of them, ... *)
Theorem C43_sbox_range_refuted :
  forall inv, inverts inv ->
  exists d : Fr, to_Z d < 659 /\ Forall (fun s => 0 <= to_Z d < s) radices /\
    Forall (fun s => s <= to_Z (SBox of_Z to_Z inv d)) radices.
Proof. exact LRCStmt.sbox_leaves. Qed.
Print Assumptions C43_sbox_range_refuted.
(** ... and "Bars is a bijection" is false: two states that differ in the first element only, ... *)
Theorem C43_bars_injective_refuted :
  forall inv, inverts inv -> forall x y : Fr,
  [of_Z 44138; x; y] <> [of_Z 43362; x; y] /\ bars of_Z to_Z inv [of_Z 44138; x; y] = bars of_Z to_Z inv [of_Z 43362; x; y].
Proof. intros inv I x y. split; [apply LRCStmt.int_distinct|exact (LRCStmt.bars_collision inv I x y)]. Qed.
Print Assumptions C43_bars_injective_refuted.
(** ... and so the permutation is not one, whatever the round constants are. *)
Theorem C43_permute_injective_refuted :
  forall inv rc, inverts inv ->
  exists A B : list Fr, length A = 3%nat /\ length B = 3%nat /\ A <> B /\ permute of_Z to_Z inv rc A = permute of_Z to_Z inv rc B.
Proof. exact LRCStmt.permute_collides. Qed.
Print Assumptions C43_permute_injective_refuted.
(** C43: the order of the layers is the specified one. *)
Theorem C43_permute_layers :
  forall inv (rc A : list Fr), length rc = 24%nat -> length A = 3%nat ->
  permute of_Z to_Z inv rc A =
  rc_permutation [[of_Z 2; of_Z 1; of_Z 1]; [of_Z 1; of_Z 1; of_Z 2]; [of_Z 1; of_Z 2; of_Z 1]]
    (bricks_of 5 (of_Z 1) (of_Z 2) (of_Z 3) (of_Z 4)) (bars of_Z to_Z inv) rc A.
Proof. exact LRCStmt.permute_is_spec. Qed.
Print Assumptions C43_permute_layers.
(** The constants of the code are as many as that: C41_reinforced_concrete_of_stream with 3 words and 3 rounds. *)
Example C43_layers_example : (2 * (3 + 1) * 3 = 24)%nat.
Proof. reflexivity. Qed.
