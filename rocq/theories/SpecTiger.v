(** * Specification: Tiger

    From Anderson and Biham, "Tiger: A Fast New Hash Function" (FSE 1996) and the authors'
    reference programs; the S-boxes are in SpecTigerTables.v. *)
From Coq Require Import NArith Arith List Bool.
From Verif Require Import SpecStream SpecWords SpecMDOctets SpecTigerTables.
Import ListNotations.
Local Open Scope N_scope.

Definition add64 (x y : N) : N := (x + y) mod 2 ^ 64.
Definition sub64 (x y : N) : N := (x + 2 ^ 64 - y) mod 2 ^ 64.
Definition mul64 (x y : N) : N := (x * y) mod 2 ^ 64.
(** Octet [i] of a word, octet 0 being the least significant. *)
Definition octet (i x : N) : N := (x / 2 ^ (8 * i)) mod 256.

(** The four S-boxes are a list [T] of four tables of 256 words. *)
Definition t (T : list (list N)) (k : nat) (i : N) : N := nth (N.to_nat i) (nth k T []) 0.

(** round(a, b, c, x, mul). *)
Definition round (T : list (list N)) (v : N * N * N) (xm : N * N) : N * N * N :=
  let '(a, b, c) := v in
  let '(x, mul) := xm in
  let c := N.lxor c x in
  let c_ i := octet i c in
  let a := sub64 a (N.lxor (N.lxor (N.lxor (t T 0 (c_ 0)) (t T 1 (c_ 2))) (t T 2 (c_ 4))) (t T 3 (c_ 6))) in
  let b := add64 b (N.lxor (N.lxor (N.lxor (t T 3 (c_ 1)) (t T 2 (c_ 3))) (t T 1 (c_ 5))) (t T 0 (c_ 7))) in
  let b := mul64 b mul in
  (a, b, c).

(** Successive rounds work on the registers shifted by one: (a, b, c), (b, c, a), (c, a, b), ...;
    this shift continues from one pass to the next, since a pass has eight rounds. *)
Definition shifted_round (T : list (list N)) (v : N * N * N) (xm : N * N) : N * N * N :=
  let '(a, b, c) := round T v xm in (b, c, a).
Definition pass (T : list (list N)) (x : list N) (mul : N) (v : N * N * N) : N * N * N :=
  fold_left (shifted_round T) (map (fun xi => (xi, mul)) x) v.

(** key_schedule: sixteen assignments x_d := x_d op value. *)
Definition set (d : nat) (f : N -> N) (x : list N) : list N :=
  map (fun p => if (fst p =? d)%nat then f (snd p) else snd p) (combine (seq 0 (length x)) x).
Definition not64 (x : N) : N := 2 ^ 64 - 1 - x.
Definition shl (k x : N) : N := (x * 2 ^ k) mod 2 ^ 64.
Definition shr (k x : N) : N := x / 2 ^ k.
Definition x_ (i : nat) (x : list N) : N := nth i x 0.
Definition assignments : list (nat * (N -> list N -> N)) :=
  [(0%nat, fun v x => sub64 v (N.lxor (x_ 7 x) 0xA5A5A5A5A5A5A5A5));
   (1%nat, fun v x => N.lxor v (x_ 0 x));
   (2%nat, fun v x => add64 v (x_ 1 x));
   (3%nat, fun v x => sub64 v (N.lxor (x_ 2 x) (shl 19 (not64 (x_ 1 x)))));
   (4%nat, fun v x => N.lxor v (x_ 3 x));
   (5%nat, fun v x => add64 v (x_ 4 x));
   (6%nat, fun v x => sub64 v (N.lxor (x_ 5 x) (shr 23 (not64 (x_ 4 x)))));
   (7%nat, fun v x => N.lxor v (x_ 6 x));
   (0%nat, fun v x => add64 v (x_ 7 x));
   (1%nat, fun v x => sub64 v (N.lxor (x_ 0 x) (shl 19 (not64 (x_ 7 x)))));
   (2%nat, fun v x => N.lxor v (x_ 1 x));
   (3%nat, fun v x => add64 v (x_ 2 x));
   (4%nat, fun v x => sub64 v (N.lxor (x_ 3 x) (shr 23 (not64 (x_ 2 x)))));
   (5%nat, fun v x => N.lxor v (x_ 4 x));
   (6%nat, fun v x => add64 v (x_ 5 x));
   (7%nat, fun v x => sub64 v (N.lxor (x_ 6 x) 0x0123456789ABCDEF))].
Definition assign (x : list N) (a : nat * (N -> list N -> N)) : list N := set (fst a) (fun v => snd a v x) x.
Definition key_schedule (x : list N) : list N := fold_left assign assignments x.

(** [passes] passes, multipliers 5, 7, 9, 9, ..., the key schedule between passes; feed-forward. *)
Definition multiplier (p : nat) : N := match p with 0%nat => 5 | 1%nat => 7 | _ => 9 end.
Definition passes (T : list (list N)) (n : nat) (x : list N) (v : N * N * N) : N * N * N :=
  fold_left (fun v p => pass T (Nat.iter p key_schedule x) (multiplier p) v) (seq 0 n) v.
Definition compress (T : list (list N)) (n : nat) (h x : list N) : list N :=
  match h with
  | [a0; b0; c0] =>
      let '(a, b, c) := passes T n x (a0, b0, c0) in [N.lxor a a0; sub64 b b0; add64 c c0]
  | _ => h
  end.

(** The initial value. *)
Definition H0 : list N := [0x0123456789ABCDEF; 0xFEDCBA9876543210; 0xF096A5B4C3B2E187].

(** Tiger with [n] passes and these S-boxes; marker octet 0x01, 64-bit length field, least
    significant octet first. *)
Definition TIGER (n : nat) (os : list N) : list N :=
  md_octets false 8 8 8 0x01 H0 (compress tables n) 24 os.
