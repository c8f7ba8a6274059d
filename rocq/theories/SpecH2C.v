(** * Specification: mapping field elements to the curves of BLS12-381

    RFC 9380 (draft-irtf-cfrg-hash-to-curve), sections 4.1, 6.6.2, 6.6.3, 8.8.1, 8.8.2. *)
From Coq Require Import ZArith Arith List Bool.
From Verif Require Import SpecPoseidon.
Import ListNotations.
Local Open Scope Z_scope.

(** ** The fields: the integers modulo q, and pairs a + b i with i^2 = -1 *)
Definition bls12_381_q : Z :=
  0x1a0111ea397fe69a4b1ba7b6434bacd764774b84f38512bf6730d2a0f6b0f6241eabfffeb153ffffb9feffffffffaaab.
Definition Fq : ring := Zp bls12_381_q.
Definition fq (z : Z) : Fq := to_zp bls12_381_q z.
Definition complex (F : ring) : ring := {|
  car := F * F;
  zero := (zero, zero); one := (one, zero);
  add := fun a b => (add (fst a) (fst b), add (snd a) (snd b));
  mul := fun a b => (sub (mul (fst a) (fst b)) (mul (snd a) (snd b)), add (mul (fst a) (snd b)) (mul (snd a) (fst b)));
  sub := fun a b => (sub (fst a) (fst b), sub (snd a) (snd b));
  opp := fun a => (opp (fst a), opp (snd a)) |}.
Definition Fq2 : ring := complex Fq.
Definition fq2 (z w : Z) : Fq2 := (fq z, fq w).

(** ** Curves y^2 = x^3 + A x + B *)
Section F.
Context {F : ring}.
Definition rhs (A B x : F) : F := add (add (mul x (mul x x)) (mul A x)) B.
Definition on_curve (A B x y : F) : Prop := mul y y = rhs A B x.
Definition square (x : F) : Prop := exists y, mul y y = x.

(** ** Contracts of the field's methods.  The inverse of zero is zero (section 4, inv0). *)
Definition inverse_of_field (inv : F -> F) : Prop := inv zero = zero /\ forall x, x <> zero -> mul x (inv x) = one.
Definition decides_square (is_square : F -> bool) : Prop := forall x, is_square x = true <-> square x.
Definition decides_zero (is_zero : F -> bool) : Prop := forall x, is_zero x = true <-> x = zero.
Definition root_of_squares (sqrt : F -> F) : Prop := forall x, square x -> mul (sqrt x) (sqrt x) = x.

(** ** The simplified SWU map (section 6.6.2) without divisions: [x], [y] is the image of [u] *)
Definition sswu (A B Z : F) (sgn : F -> bool) (u x y : F) : Prop :=
  let t := mul Z (mul u u) in
  let d := add (mul t t) t in
  exists x1,
    (d = zero -> mul (mul Z A) x1 = B) /\
    (d <> zero -> mul (mul A x1) d = opp (mul B (add d one))) /\
    (square (rhs A B x1) -> x = x1) /\
    (~ square (rhs A B x1) -> x = mul t x1) /\
    on_curve A B x y /\ sgn y = sgn u.
End F.

(** ** sgn0 (section 4.1): the parity of the first coordinate that is not zero *)
Definition parity (x : Fq) : bool := Z.odd (proj1_sig x).
Definition parity2 (x : Fq2) : bool := if Z.eqb (proj1_sig (fst x)) 0 then parity (snd x) else parity (fst x).

(** ** The curves: E1 and E2 of BLS12-381, and the curves isogenous to them (sections 8.8.1, 8.8.2) *)
Definition E1 (x y : Fq) : Prop := on_curve (fq 0) (fq 4) x y.
Definition E2 (x y : Fq2) : Prop := on_curve (fq2 0 0) (fq2 4 4) x y.
Definition A1 : Fq := fq 0x144698a3b8e9433d693a02c96d4982b0ea985383ee66a8d8e8981aefd881ac98936f8da0e0f97f5cf428082d584c1d.
Definition B1 : Fq := fq 0x12e2908d11688030018b12e8753eee3b2016c1f0f24f4070a0b9c14fcef35ef55a23215a316ceaa5d1cc48e98e172be0.
Definition Z1 : Fq := fq 11.
Definition A2 : Fq2 := fq2 0 240.
Definition B2 : Fq2 := fq2 1012 1012.
Definition Z2 : Fq2 := fq2 (-2) (-1).
(** The x coordinates of the points of the kernels: of order 11 (each is the x coordinate of the double of the point
    before it, and the first of the double of the last) and of order 3. *)
Definition kernel1 : list Z :=
  [0x10ef325dd1e98bdf0d97a4c6b7f968ed7f31f2fbff088acb39d5319cfc261ea18773405f325612742f0c5d90634bcf4;
   0x1665a9c648e78314490a94f654d9b1039ab85847223bfaed9aa54f0f07736d122d1ceca1ac0e9123e753fde16e97c3d7;
   0x105249b4cac630ce5aa18e6c1189a18c82019b4e12e491fbac012c259ca3a67f638560b8bb416af02a4724385ed0fc8e;
   0x140d41735b10ce710727cd9356905701a2b866b803baa468948b7f423ddcc560c9a8f1cd5f8ed4297c37464fb8bfe4a7;
   0xd7f2d0d03ae035321eed4c1479d13251abf0e9a96479623eb5380b575e319851fb5e5a8b43b9c1a46880f54bf2b2f7c].
Definition kernel2 : Fq2 := fq2 (-6) 6.
(** [x'] is the x coordinate of the double of a point with x coordinate [x]. *)
Definition doubles {F : ring} (A B x x' : F) : Prop :=
  let four := add (add one one) (add one one) in
  let s := add (mul (add (add one one) one) (mul x x)) A in
  rhs A B x <> zero /\
  mul x' (mul four (rhs A B x)) = sub (mul s s) (mul (mul (add four four) x) (rhs A B x)).

(** Vélu's formulas: the image of a point (X, Y), X not in the kernel, under the normalised isogeny of the curve
    y^2 = x^3 + A x + B whose kernel is the neutral element and the points, none of order two, with an x coordinate in
    [kernel]:
      x' = X + sum of v / (X - k) + u / (X - k)^2,   y' = Y (1 - sum of v / (X - k)^2 + 2 u / (X - k)^3)
    with v = 2 (3 k^2 + A) and u = 4 (k^3 + A k + B) for each k in [kernel]. *)
Section Velu.
Context {F : ring} (inv : F -> F) (A B : F).
Definition two : F := add one one.
Definition velu_v (k : F) : F := mul two (add (mul (add two one) (mul k k)) A).
Definition velu_u (k : F) : F := mul (mul two two) (rhs A B k).
Fixpoint velu_x (kernel : list F) (X : F) : F :=
  match kernel with
  | [] => X
  | k :: ks => let i := inv (sub X k) in add (velu_x ks X) (add (mul (velu_v k) i) (mul (velu_u k) (mul i i)))
  end.
Fixpoint velu_dx (kernel : list F) (X : F) : F :=
  match kernel with
  | [] => one
  | k :: ks => let i := inv (sub X k) in
      sub (velu_dx ks X) (add (mul (velu_v k) (mul i i)) (mul (mul two (velu_u k)) (mul i (mul i i))))
  end.
Definition velu_y (kernel : list F) (X Y : F) : F := mul Y (velu_dx kernel X).
End Velu.

(** The isogenies of sections 8.8.1 and 8.8.2 (appendices E.2, E.3): of degree 11 and 3, Vélu's followed by the
    isomorphism that multiplies x by the inverse of 11^2 and of (-3)^2, and y by the inverse of 11^3 and of (-3)^3. *)
Definition isogeny1 (inv : Fq -> Fq) (X Y : Fq) : Fq * Fq :=
  (mul (velu_x inv A1 B1 (map fq kernel1) X) (inv (fq (11 ^ 2))), mul (velu_y inv A1 B1 (map fq kernel1) X Y) (inv (fq (11 ^ 3)))).
Definition isogeny2 (inv : Fq2 -> Fq2) (X Y : Fq2) : Fq2 * Fq2 :=
  (mul (velu_x inv A2 B2 [kernel2] X) (inv (fq2 ((-3) ^ 2) 0)), mul (velu_y inv A2 B2 [kernel2] X Y) (inv (fq2 ((-3) ^ 3) 0))).

(** ** Cofactors: x is BLS12-381's parameter; h_eff as sections 8.8.1, 8.8.2 define them; r the prime order *)
Definition bls12_381_x : Z := - 0xd201000000010000.
Definition bls12_381_r : Z := let x := bls12_381_x in x ^ 4 - x ^ 2 + 1.
(** The order of E2 is this times r (times 9: h of section 8.8.2 written without a division). *)
Definition g2_cofactor_9 : Z :=
  let x := bls12_381_x in x ^ 8 - 4 * x ^ 7 + 5 * x ^ 6 - 4 * x ^ 4 + 6 * x ^ 3 - 4 * x ^ 2 - 4 * x + 13.
(** [mult] is multiplication of a group's elements by integers; [e] the neutral element. *)
Definition multiples {G : Type} (e : G) (mult : G -> Z -> G) : Prop :=
  (forall R a b, mult (mult R a) b = mult R (a * b)) /\ forall a, mult e a = e.
