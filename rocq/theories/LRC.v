(** * Reinforced Concrete: proofs about the model *)
From Coq Require Import ZArith Arith List Bool Lia Ring ZifyBool ZifyNat Znumtheory.
From Verif Require Import SpecPoseidon SpecRC MRC LPoseidonBij LFermat.
Import ListNotations.
Ltac Zify.zify_post_hook ::= Z.div_mod_to_equations.
Local Open Scope Z_scope.

(** ** Integers in a mixed radix, least significant digit first *)
Fixpoint mixed (bs : list Z) (e : Z) : list Z :=
  match bs with [] => [] | b :: r => e mod b :: mixed r (e / b) end.
Fixpoint low_value (bs ds : list Z) : Z :=
  match bs, ds with b :: r, x :: t => x + b * low_value r t | _, _ => 0 end.
Fixpoint fits (p w : Z) (bs : list Z) : bool :=
  match bs with [] => true | b :: r => (0 <? b) && (b <? p) && (w <? p) && fits p (w * b) r end.
Lemma mixed_range bs : Forall (fun b => 0 < b) bs -> forall e, Forall2 (fun b x => 0 <= x < b) bs (mixed bs e).
Proof. induction 1 as [|b r Hb Hr IH]; intros e; cbn [mixed]; constructor; [now apply Z.mod_pos_bound|apply IH]. Qed.
Lemma mixed_value bs : Forall (fun b => 0 < b) bs -> forall e, 0 <= e < product bs -> low_value bs (mixed bs e) = e.
Proof.
  induction 1 as [|b r Hb Hr IH]; intros e He; cbn [mixed low_value product fold_right] in *; [lia|]. fold (product r) in He.
  rewrite IH; [pose proof (Z.div_mod e b ltac:(lia)); lia|]. split; [apply Z.div_pos; lia|]. apply Z.div_lt_upper_bound; lia.
Qed.
Lemma digits_value_snoc bs ds b x : length bs = length ds -> digits_value (bs ++ [b]) (ds ++ [x]) = digits_value bs ds * b + x.
Proof.
  intros L. unfold digits_value. replace (combine (bs ++ [b]) (ds ++ [x])) with (combine bs ds ++ [(b, x)]).
  - rewrite fold_left_app. reflexivity.
  - revert ds L. induction bs as [|c bs IH]; intros [|y ds] L; try discriminate L; [reflexivity|]. cbn [combine app]. f_equal. apply IH. now injection L.
Qed.
Lemma digits_value_rev bs : forall ds, length bs = length ds -> digits_value (rev bs) (rev ds) = low_value bs ds.
Proof.
  induction bs as [|b bs IH]; intros [|x ds] L; try discriminate L; [reflexivity|]. cbn [rev low_value]. injection L as L.
  rewrite digits_value_snoc by (rewrite !rev_length; exact L). rewrite IH by exact L. lia.
Qed.

Section A.
Context {F : ring} (R : is_ring F) (int : Z -> F) (data : F -> Z) (inversed : F -> F) (p : Z).
Lemma ring_F : ring_theory (@zero F) one add mul sub opp eq. Proof. exact R. Qed.
Add Ring Fring : ring_F.
Context (p1 : 1 < p) (int_zero : int 0 = zero) (int_one : int 1 = one)
  (int_add : forall a b, int (a + b) = add (int a) (int b)) (int_mul : forall a b, int (a * b) = mul (int a) (int b))
  (int_sub : forall a b, int (a - b) = sub (int a) (int b)) (int_data : forall x, int (data x) = x)
  (data_int : forall z, data (int z) = z mod p).
Lemma data_range x : 0 <= data x < p.
Proof. rewrite <- (int_data x), data_int. apply Z.mod_pos_bound. lia. Qed.
Lemma data_small z : 0 <= z < p -> data (int z) = z.
Proof. intros H. rewrite data_int. now apply Z.mod_small. Qed.

(** *** Digits *)
Section Inv.
Context (inv_ok : forall x, x <> zero -> mul x (inversed x) = one).
Lemma int_nonzero z : 0 < z < p -> int z <> zero.
Proof. intros H E. rewrite <- int_zero in E. apply (f_equal data) in E. rewrite !data_small in E by lia. lia. Qed.
Lemma inv_unique x y : mul x y = one -> inversed x = y.
Proof.
  intros E. assert (N : x <> zero).
  { intros ->. assert (Z1 : @one F = zero) by (rewrite <- E; ring). rewrite <- int_one, <- int_zero in Z1. apply (f_equal data) in Z1.
    rewrite !data_small in Z1 by lia. lia. }
  transitivity (mul (inversed x) (mul x y)); [rewrite E; ring|]. transitivity (mul (mul x (inversed x)) y); [ring|]. rewrite (inv_ok x N). ring.
Qed.
Lemma decompose_loop_spec bs : forall e w, 0 <= e < p -> 0 < w -> fits p w bs = true ->
  decompose_loop int data inversed (map int bs) (int e) (int (e mod w)) (int w) = map int (mixed bs (e / w)).
Proof.
  induction bs as [|b r IH]; intros e w He Hw H; [reflexivity|]. cbn [fits] in H.
  apply andb_prop in H. destruct H as [H Hf]. apply andb_prop in H. destruct H as [H Hwp]. apply andb_prop in H. destruct H as [Hb Hbp].
  apply Z.ltb_lt in Hb, Hbp, Hwp. cbn [map decompose_loop mixed]. cbv zeta.
  assert (Q : mul (sub (int e) (int (e mod w))) (inversed (int w)) = int (e / w)).
  { rewrite <- int_sub. replace (e - e mod w) with (w * (e / w)) by (pose proof (Z.div_mod e w ltac:(lia)); lia). rewrite int_mul.
    transitivity (mul (mul (int w) (inversed (int w))) (int (e / w))); [ring|]. rewrite inv_ok by (apply int_nonzero; lia). ring. }
  rewrite Q. assert (Hq : 0 <= e / w < p) by (split; [apply Z.div_pos; lia|apply Z.div_lt_upper_bound; nia]).
  rewrite (data_small (e / w)) by exact Hq. rewrite (data_small b) by lia. f_equal.
  rewrite <- !int_mul, <- int_add. rewrite Z.div_div by lia.
  replace (e mod w + e / w mod b * w) with (e mod (w * b)) by (rewrite Z.rem_mul_r by lia; ring). apply IH; [exact He|nia|exact Hf].
Qed.
End Inv.
Lemma compose_loop_spec bs : forall ds c w, compose_loop (map int bs) (map int ds) (int c) (int w) = int (c + w * low_value bs ds).
Proof.
  induction bs as [|b r IH]; intros [|x t] c w; cbn [map compose_loop low_value]; try (f_equal; lia).
  rewrite <- int_mul, <- int_add, <- int_mul, IH. f_equal. ring.
Qed.

(** *** Concrete *)
Definition three (s : list F) : Prop := length s = 3%nat.
Lemma int_two : int 2 = add one one.
Proof. change 2 with (1 + 1). rewrite int_add, int_one. reflexivity. Qed.
Lemma concrete_value rc x y z i : concrete int rc [x; y; z] i =
  [add (add (add (mul (int 2) x) y) z) (nth (i * 3) rc zero); add (add (add x y) (mul (int 2) z)) (nth (i * 3 + 1) rc zero);
   add (add (add x (mul (int 2) y)) z) (nth (i * 3 + 2) rc zero)].
Proof.
  unfold concrete, matvectmul, generate_mds_matrix, state_words. cbv zeta. cbn [seq map nth Nat.add Nat.modulo Nat.divmod fst snd sum fold_right Nat.sub].
  rewrite Nat.add_0_r, int_one. generalize (nth (i * 3) rc zero), (nth (i * 3 + 1) rc zero), (nth (i * 3 + 2) rc zero), (int 2). intros a b c t.
  f_equal; [ring|]. f_equal; [ring|]. f_equal. ring.
Qed.
Lemma concrete_bijection rc i q : mul (int 4) q = one -> bijection_of three (fun s => concrete int rc s i).
Proof.
  intros Q. set (a := nth (i * 3) rc zero). set (b := nth (i * 3 + 1) rc zero). set (c := nth (i * 3 + 2) rc zero).
  assert (I4 : int 4 = add (add one one) (add one one)) by (change 4 with (2 + 2); now rewrite int_add, int_two).
  apply (bijection_inv _ _ (fun s => match s with
    | [x; y; z] => let x := sub x a in let y := sub y b in let z := sub z c in
        [mul q (sub (sub (mul (int 3) x) y) z); mul q (sub (sub (mul (int 3) z) x) y); mul q (sub (sub (mul (int 3) y) x) z)]
    | _ => [] end)).
  - intros s Hs. destruct s as [|x [|y [|z [|]]]]; try discriminate Hs. rewrite concrete_value. reflexivity.
  - intros s Hs. destruct s as [|x [|y [|z [|]]]]; try discriminate Hs. reflexivity.
  - intros s Hs. destruct s as [|x [|y [|z [|]]]]; try discriminate Hs. rewrite concrete_value. cbv zeta. fold a b c.
    assert (I3 : int 3 = add (add one one) one) by (change 3 with (2 + 1); now rewrite int_add, int_two, int_one). rewrite I3, int_two.
    assert (K : forall u, mul (mul (int 4) q) u = u) by (intros u; rewrite Q; ring). rewrite I4 in K.
    f_equal; [etransitivity; [|apply (K x)]; ring|]. f_equal; [etransitivity; [|apply (K y)]; ring|]. f_equal. etransitivity; [|apply (K z)]; ring.
  - intros s Hs. destruct s as [|x [|y [|z [|]]]]; try discriminate Hs. cbv zeta. rewrite concrete_value. fold a b c.
    assert (I3 : int 3 = add (add one one) one) by (change 3 with (2 + 1); now rewrite int_add, int_two, int_one). rewrite I3, int_two.
    assert (K : forall u v, add (mul (mul (int 4) q) (sub u v)) v = u) by (intros u v; rewrite Q; ring). rewrite I4 in K.
    f_equal; [etransitivity; [|apply (K x a)]; ring|]. f_equal; [etransitivity; [|apply (K y b)]; ring|]. f_equal. etransitivity; [|apply (K z c)]; ring.
Qed.

(** *** Bricks *)
Lemma bricks_value x y z : bricks int [x; y; z] = bricks_of 5 one (int 2) (int 3) (int 4) [x; y; z].
Proof. unfold bricks, bricks_of, alphas, betas, d. cbv zeta. cbn [nth]. now rewrite int_one. Qed.
Lemma bricks_bijection (g : F -> F) : @sbox_inverse F 5 g -> (forall x, x <> zero -> mul x (inversed x) = one) ->
  (forall x, add (add (mul x x) x) (int 2) <> zero) -> (forall x, add (add (mul x x) (mul (int 3) x)) (int 4) <> zero) ->
  bijection_of three (bricks int).
Proof.
  intros G I N1 N2.
  apply (bijection_inv _ _ (fun s => match s with
    | [x; y; z] => let x := g x in let y := mul y (inversed (add (add (mul x x) x) (int 2))) in
        [x; y; mul z (inversed (add (add (mul y y) (mul (int 3) y)) (int 4)))]
    | _ => [] end)).
  - intros s Hs. destruct s as [|x [|y [|z [|]]]]; try discriminate Hs. reflexivity.
  - intros s Hs. destruct s as [|x [|y [|z [|]]]]; try discriminate Hs. reflexivity.
  - intros s Hs. destruct s as [|x [|y [|z [|]]]]; try discriminate Hs. rewrite bricks_value. unfold bricks_of. cbv zeta.
    destruct (G x) as [G1 _]. rewrite G1. replace (mul one x) with x by ring.
    assert (E : mul (mul y (add (add (mul x x) x) (int 2))) (inversed (add (add (mul x x) x) (int 2))) = y).
    { transitivity (mul y (mul (add (add (mul x x) x) (int 2)) (inversed (add (add (mul x x) x) (int 2))))); [ring|]. rewrite I by apply N1. ring. }
    rewrite E. f_equal. f_equal. f_equal.
    transitivity (mul z (mul (add (add (mul y y) (mul (int 3) y)) (int 4)) (inversed (add (add (mul y y) (mul (int 3) y)) (int 4))))); [ring|].
    rewrite I by apply N2. ring.
  - intros s Hs. destruct s as [|x [|y [|z [|]]]]; try discriminate Hs. cbv zeta. rewrite bricks_value. unfold bricks_of.
    destruct (G x) as [_ G2]. rewrite G2. set (u := g x). replace (mul one u) with u by ring. set (v := mul y (inversed (add (add (mul u u) u) (int 2)))).
    assert (E : mul v (add (add (mul u u) u) (int 2)) = y).
    { unfold v. transitivity (mul y (mul (add (add (mul u u) u) (int 2)) (inversed (add (add (mul u u) u) (int 2))))); [ring|]. rewrite I by apply N1. ring. }
    rewrite E. f_equal. f_equal. f_equal.
    transitivity (mul z (mul (add (add (mul v v) (mul (int 3) v)) (int 4)) (inversed (add (add (mul v v) (mul (int 3) v)) (int 4))))); [ring|].
    rewrite I by apply N2. ring.
Qed.

(** *** The permutation *)
Lemma permute_collision rc a b q (g : F -> F) : mul (int 4) q = one -> @sbox_inverse F 5 g -> (forall x, x <> zero -> mul x (inversed x) = one) ->
  (forall x, add (add (mul x x) x) (int 2) <> zero) -> (forall x, add (add (mul x x) (mul (int 3) x)) (int 4) <> zero) ->
  three a -> three b -> a <> b -> bars int data inversed a = bars int data inversed b ->
  exists A B, three A /\ three B /\ A <> B /\ permute int data inversed rc A = permute int data inversed rc B.
Proof.
  intros Q G I N1 N2 Ta Tb D E.
  assert (P : bijection_of three (fun s => fold_left (bricks_concrete int rc) (seq 1 rounds) (concrete int rc s 0))).
  { apply (bijection_comp three (fun s => concrete int rc s 0) (fun s => fold_left (bricks_concrete int rc) (seq 1 rounds) s));
      [now apply concrete_bijection with (q := q)|].
    apply bijection_fold. intros r _. unfold bricks_concrete.
    apply (bijection_comp three (bricks int) (fun s => concrete int rc s r)); [now apply bricks_bijection with (g := g)|].
    now apply concrete_bijection with (q := q). }
  destruct P as [_ P]. destruct (P a Ta) as (A & TA & EA & _). destruct (P b Tb) as (B & TB & EB & _). exists A, B.
  repeat split; [exact TA|exact TB| |].
  - intros ->. apply D. rewrite <- EA. exact EB.
  - unfold permute. cbv zeta. rewrite EA, EB, E. reflexivity.
Qed.
End A.
