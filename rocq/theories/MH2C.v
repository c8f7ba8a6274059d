(** * Model of hashing to the curves of BLS12-381 after the hash to the field

    include/nil/crypto3/hash/detail/h2c/h2c_functions.hpp and h2c_suites.hpp.  The field and the group are external
    (crypto3-algebra).  Field: the ring [F] and the methods inversed, is_square, sqrt, is_zero.  Group: the constructor
    group_value_type(x, y, 1) is [point], group_value_type::one() is [group_one], + and the product with an integer are
    [gadd] and [gmul].  The quotient a / b of elements is a * b.inversed(), as the external operator/ has it. *)
From Coq Require Import ZArith Arith List Bool.
From Verif Require Import SpecStream MPack MAcc MXmd SpecPoseidon SpecH2C MH2CTables.
Import ListNotations.
Local Open Scope Z_scope.

(** h2c_functions.hpp:46-54; e.data % two: the canonical integer modulo 2. *)
Definition sgn0 (e : Fq) : bool := negb (proj1_sig e mod 2 =? 0).
(** h2c_functions.hpp:56-67. *)
Definition sgn0_2 (e : Fq2) : bool :=
  let sign_0 := proj1_sig (fst e) mod 2 in
  let zero_0 := proj1_sig (fst e) =? 0 in
  let sign_1 := proj1_sig (snd e) mod 2 in
  negb (sign_0 =? 0) || (zero_0 && negb (sign_1 =? 0)).

Section Map.
Context {F : ring} (inversed : F -> F) (is_square : F -> bool) (sqrt : F -> F) (is_zero : F -> bool) (sgn0 : F -> bool).
Definition div (a b : F) : F := mul a (inversed b).

(** h2c_functions.hpp:280-311; the point as its affine coordinates.  [Ai], [Bi], [Z]: of the suite. *)
Definition simple_swu (Ai Bi Z u : F) : F * F :=
  let tv1 := inversed (add (mul (power Z 2) (power u 4)) (mul Z (power u 2))) in
  let x1 := mul (div (opp Bi) Ai) (add one tv1) in
  let x1 := if is_zero tv1 then div Bi (mul Z Ai) else x1 in
  let gx1 := add (add (power x1 3) (mul Ai x1)) Bi in
  let x2 := mul (mul Z (power u 2)) x1 in
  let gx2 := add (add (power x2 3) (mul Ai x2)) Bi in
  let '(x, y) := if is_square gx1 then (x1, sqrt gx1) else (x2, sqrt gx2) in
  let y := if negb (Bool.eqb (sgn0 u) (sgn0 y)) then opp y else y in
  (x, y).

(** h2c_functions.hpp:152-158, 239-245: [n] is 15 (G1) or 3 (G2). *)
Definition xi_powers (n : nat) (X : F) : list F :=
  fold_left (fun xi _ => xi ++ [mul (last xi zero) X]) (seq 0 n) [one].
Section Iso.
(** [coef]: field_value_type(k) or field_value_type(k[0], k[1]). *)
Context {C G : Type} (coef : C -> F) (c0 : C) (n : nat) (k_x_num k_x_den k_y_num k_y_den : list C)
  (point : F -> F -> G) (group_one : G).
(** The loops "for (i = 0; i < k.size(); i++) s += field_value_type(k[i]) * xi_powers[i]". *)
Definition k_sum (k : list C) (xi : list F) : F :=
  fold_left (fun s i => add s (mul (coef (nth i k c0)) (nth i xi zero))) (seq 0 (length k)) zero.
(** h2c_functions.hpp:146-183, 233-270. *)
Definition iso_map (X Y : F) : G :=
  let xi := xi_powers n X in
  let x_den := add (k_sum k_x_den xi) (nth (length k_x_den) xi zero) in
  let y_den := add (k_sum k_y_den xi) (nth (length k_y_den) xi zero) in
  if is_zero x_den || is_zero y_den then group_one
  else
    let x_num := k_sum k_x_num xi in
    let y_num := k_sum k_y_num xi in
    point (div x_num x_den) (div (mul Y y_num) y_den).
(** h2c_functions.hpp:321-324. *)
Definition swu_zeroAB (Ai Bi Z u : F) : G := let '(X, Y) := simple_swu Ai Bi Z u in iso_map X Y.
End Iso.
End Map.

(** h2c_suites.hpp:55-60, 74-78. *)
Definition g1_Ai : Fq := fq 0x144698a3b8e9433d693a02c96d4982b0ea985383ee66a8d8e8981aefd881ac98936f8da0e0f97f5cf428082d584c1d.
Definition g1_Bi : Fq := fq 0x12e2908d11688030018b12e8753eee3b2016c1f0f24f4070a0b9c14fcef35ef55a23215a316ceaa5d1cc48e98e172be0.
Definition g1_Z : Fq := fq 11.
Definition g1_h_eff : Z := 0xd201000000010001.
Definition g2_Ai : Fq2 := fq2 0 240.
Definition g2_Bi : Fq2 := fq2 1012 1012.
Definition g2_Z : Fq2 := opp (fq2 2 1).
Definition g2_h_eff : Z := 0xbc69f08f2ee75b3584c6a0ea91b352888e2a8e9145ad7689986ff031508ffe1329c2f178731db956d82bf015d1212b02ec0ec69d7477c1ae954cbc06689f6a359894c0adebbf6b4e8020005aaa95551.

(** h2c_functions.hpp:74-184 and 330-332: map_to_curve for G1. *)
Definition iso_map_g1 {G} (inversed : Fq -> Fq) (is_zero : Fq -> bool) (point : Fq -> Fq -> G) (group_one : G) : Fq -> Fq -> G :=
  iso_map inversed is_zero fq 0 15 g1_k_x_num g1_k_x_den g1_k_y_num g1_k_y_den point group_one.
Definition map_to_curve_g1 {G} inversed is_square sqrt is_zero (point : Fq -> Fq -> G) (group_one : G) (u : Fq) : G :=
  swu_zeroAB inversed is_square sqrt is_zero sgn0 fq 0 15 g1_k_x_num g1_k_x_den g1_k_y_num g1_k_y_den point group_one
    g1_Ai g1_Bi g1_Z u.
(** h2c_functions.hpp:188-271 and 334-336: for G2. *)
Definition coef2 (k : Z * Z) : Fq2 := fq2 (fst k) (snd k).
Definition iso_map_g2 {G} (inversed : Fq2 -> Fq2) (is_zero : Fq2 -> bool) (point : Fq2 -> Fq2 -> G) (group_one : G) : Fq2 -> Fq2 -> G :=
  iso_map inversed is_zero coef2 (0, 0) 3 g2_k_x_num g2_k_x_den g2_k_y_num g2_k_y_den point group_one.
Definition map_to_curve_g2 {G} inversed is_square sqrt is_zero (point : Fq2 -> Fq2 -> G) (group_one : G) (u : Fq2) : G :=
  swu_zeroAB inversed is_square sqrt is_zero sgn0_2 coef2 (0, 0) 3 g2_k_x_num g2_k_x_den g2_k_y_num g2_k_y_den point group_one
    g2_Ai g2_Bi g2_Z u.

(** h2c_functions.hpp:338-351; [gmul]: the product of a point and an integer. *)
Section Ep.
Context {F G : Type} (gadd : G -> G -> G) (gmul : G -> Z -> G) (map_to_curve : F -> G) (h_eff : Z).
Definition clear_cofactor (R : G) : G := gmul R h_eff.
Definition ep_map (u0 u1 : F) : G :=
  let Q0 := map_to_curve u0 in
  let Q1 := map_to_curve u1 in
  clear_cofactor (gadd Q0 Q1).
End Ep.

(** h2c.hpp:109-112 inside the accumulator of MXmd.v: each extraction maps the two elements of hash_to_field
    (h2f.hpp; uniform_count is 2) to the group.  [elem]: the field element with these coordinates. *)
Section Process.
Context {F G : Type} (C : construction) (inj : injector) (b : nat) (elem : list N -> F) (ep : F -> F -> G).
Definition ep_of (us : list (list N)) : G := ep (elem (nth 0 us [])) (elem (nth 1 us [])).
Fixpoint h2c_run (p : N) (m L count : nat) (dst : list N) (a : acc C) (ops : list xop) : option (list G) :=
  match ops with
  | [] => Some []
  | XUpdate vb xs :: r => bind (xmd_update C inj vb a xs) (fun a => h2c_run p m L count dst a r)
  | XExtract junks buf :: r =>
      bind (h2f_process C inj b p m L count junks dst buf a) (fun ua =>
      bind (h2c_run p m L count dst (snd ua) r) (fun us => Some (ep_of (fst ua) :: us)))
  end.
End Process.
Definition elem1 (c : list N) : Fq := fq (Z.of_N (nth 0 c 0%N)).
Definition elem2 (c : list N) : Fq2 := fq2 (Z.of_N (nth 0 c 0%N)) (Z.of_N (nth 1 c 0%N)).
