(** * Specification: RIPEMD-128, -160, -256 and -320

    From Dobbertin, Bosselaers, Preneel, "RIPEMD-160: A Strengthened Version of RIPEMD" (1996) and
    the authors' description of the double-length variants. *)
From Coq Require Import NArith Arith List Bool.
From Verif Require Import SpecStream SpecWords SpecMDOctets.
Import ListNotations.
Local Open Scope N_scope.

Definition add (l : list N) : N := fold_right N.add 0 l mod 2 ^ 32.
Definition rol (s x : N) : N := (x * 2 ^ s) mod 2 ^ 32 + x / 2 ^ (32 - s).
Definition not (x : N) : N := N.lnot x 32.

(** Nonlinear functions at bit level, by round. *)
Definition f (round : nat) (x y z : N) : N :=
  match round with
  | 0%nat => N.lxor (N.lxor x y) z
  | 1%nat => N.lor (N.land x y) (N.land (not x) z)
  | 2%nat => N.lxor (N.lor x (not y)) z
  | 3%nat => N.lor (N.land x z) (N.land y (not z))
  | _ => N.lxor x (N.lor y (not z))
  end.

(** Added constants: the integer parts of 2^30 times the square roots (left) and cube roots (right)
    of 2, 3, 5 and 7, and 0. *)
Definition cbrt (n : N) : N :=
  fold_left (fun r i => if (r + 2 ^ i) ^ 3 <=? n then r + 2 ^ i else r)
    (rev (map N.of_nat (seq 0 34))) 0.
Definition K (round : nat) : N :=
  match round with
  | 0%nat => 0 | 1%nat => N.sqrt (2 * 2 ^ 60) | 2%nat => N.sqrt (3 * 2 ^ 60)
  | 3%nat => N.sqrt (5 * 2 ^ 60) | _ => N.sqrt (7 * 2 ^ 60)
  end.
Definition K_cube (round : nat) : N :=
  match round with
  | 0%nat => cbrt (2 * 2 ^ 90) | 1%nat => cbrt (3 * 2 ^ 90) | 2%nat => cbrt (5 * 2 ^ 90)
  | 3%nat => cbrt (7 * 2 ^ 90) | _ => 0
  end.
(** [rounds] is 5 for the 160-bit step and 4 for the 128-bit step, where the last right constant is 0. *)
Definition K' (rounds round : nat) : N := if (S round =? rounds)%nat then 0 else K_cube round.

(** Selection of message word: left rho^round, right rho^round applied to pi. *)
Definition rho (i : nat) : nat := nth i [7; 4; 13; 1; 10; 6; 15; 3; 12; 0; 9; 5; 2; 14; 11; 8]%nat 0%nat.
Definition pi (i : nat) : nat := ((9 * i + 5) mod 16)%nat.
Definition r (round i : nat) : nat := Nat.iter round rho i.
Definition r' (round i : nat) : nat := Nat.iter round rho (pi i).

(** Amount of rotate left, by round and message word, the same table for both lines. *)
Definition shifts : list (list N) :=
  [[11; 14; 15; 12; 5; 8; 7; 9; 11; 13; 14; 15; 6; 7; 9; 8];
   [12; 13; 11; 15; 6; 9; 9; 7; 12; 15; 11; 13; 7; 8; 7; 7];
   [13; 15; 14; 11; 7; 7; 6; 8; 13; 14; 13; 12; 5; 5; 6; 9];
   [14; 11; 12; 14; 8; 6; 5; 5; 15; 12; 15; 14; 9; 9; 8; 6];
   [15; 12; 13; 13; 9; 5; 8; 6; 14; 11; 12; 11; 8; 6; 5; 5]].
Definition s (round word : nat) : N := nth word (nth round shifts []) 0.

(** One line: registers (A, B, C, D) and (A, B, C, D, E). *)
Definition step4 (F : N -> N -> N -> N) (x k rot : N) (v : N * N * N * N) : N * N * N * N :=
  let '(A, B, C, D) := v in (D, rol rot (add [A; F B C D; x; k]), B, C).
Definition step5 (F : N -> N -> N -> N) (x k rot : N) (v : N * N * N * N * N) : N * N * N * N * N :=
  let '(A, B, C, D, E) := v in (E, add [rol rot (add [A; F B C D; x; k]); E], B, rol 10 C, D).

(** The sixteen steps of a round of the left and of the right line. *)
Section Rounds.
Context {V : Type} (step : (N -> N -> N -> N) -> N -> N -> N -> V -> V) (rounds : nat) (X : list N).
Definition left_round (v : V) (j : nat) : V :=
  fold_left (fun v i => step (f j) (nth (r j i) X 0) (K j) (s j (r j i)) v) (seq 0 16) v.
Definition right_round (v : V) (j : nat) : V :=
  fold_left (fun v i => step (f (rounds - 1 - j)) (nth (r' j i) X 0) (K' rounds j) (s j (r' j i)) v) (seq 0 16) v.
End Rounds.

Definition RIPEMD128_compress (h X : list N) : list N :=
  match h with
  | [h0; h1; h2; h3] =>
      let '(A, B, C, D) := fold_left (left_round step4 X) (seq 0 4) (h0, h1, h2, h3) in
      let '(A', B', C', D') := fold_left (right_round step4 4 X) (seq 0 4) (h0, h1, h2, h3) in
      [add [h1; C; D']; add [h2; D; A']; add [h3; A; B']; add [h0; B; C']]
  | _ => h
  end.

Definition RIPEMD160_compress (h X : list N) : list N :=
  match h with
  | [h0; h1; h2; h3; h4] =>
      let '(A, B, C, D, E) := fold_left (left_round step5 X) (seq 0 5) (h0, h1, h2, h3, h4) in
      let '(A', B', C', D', E') := fold_left (right_round step5 5 X) (seq 0 5) (h0, h1, h2, h3, h4) in
      [add [h1; C; D']; add [h2; D; E']; add [h3; E; A']; add [h4; A; B']; add [h0; B; C']]
  | _ => h
  end.

(** Double length: the lines start from different values; after round [j] one register is exchanged
    between them; no final mixing of the lines. *)
Definition exchange4 (j : nat) (p : (N * N * N * N) * (N * N * N * N)) :=
  let '((A, B, C, D), (A', B', C', D')) := p in
  match j with
  | 0%nat => ((A', B, C, D), (A, B', C', D'))
  | 1%nat => ((A, B', C, D), (A', B, C', D'))
  | 2%nat => ((A, B, C', D), (A', B', C, D'))
  | _ => ((A, B, C, D'), (A', B', C', D))
  end.
Definition exchange5 (j : nat) (p : (N * N * N * N * N) * (N * N * N * N * N)) :=
  let '((A, B, C, D, E), (A', B', C', D', E')) := p in
  match j with
  | 0%nat => ((A, B', C, D, E), (A', B, C', D', E'))
  | 1%nat => ((A, B, C, D', E), (A', B', C', D, E'))
  | 2%nat => ((A', B, C, D, E), (A, B', C', D', E'))
  | 3%nat => ((A, B, C', D, E), (A', B', C, D', E'))
  | _ => ((A, B, C, D, E'), (A', B', C', D', E))
  end.

Definition RIPEMD256_compress (h X : list N) : list N :=
  match h with
  | [h0; h1; h2; h3; h4; h5; h6; h7] =>
      let '((A, B, C, D), (A', B', C', D')) :=
        fold_left (fun p j => exchange4 j (left_round step4 X (fst p) j, right_round step4 4 X (snd p) j))
          (seq 0 4) ((h0, h1, h2, h3), (h4, h5, h6, h7)) in
      [add [h0; A]; add [h1; B]; add [h2; C]; add [h3; D]; add [h4; A']; add [h5; B']; add [h6; C']; add [h7; D']]
  | _ => h
  end.
Definition RIPEMD320_compress (h X : list N) : list N :=
  match h with
  | [h0; h1; h2; h3; h4; h5; h6; h7; h8; h9] =>
      let '((A, B, C, D, E), (A', B', C', D', E')) :=
        fold_left (fun p j => exchange5 j (left_round step5 X (fst p) j, right_round step5 5 X (snd p) j))
          (seq 0 5) ((h0, h1, h2, h3, h4), (h5, h6, h7, h8, h9)) in
      [add [h0; A]; add [h1; B]; add [h2; C]; add [h3; D]; add [h4; E];
       add [h5; A']; add [h6; B']; add [h7; C']; add [h8; D']; add [h9; E']]
  | _ => h
  end.

(** Initial values; the second half has the halves of the octets of the first exchanged. *)
Definition IV5 : list N := [0x67452301; 0xEFCDAB89; 0x98BADCFE; 0x10325476; 0xC3D2E1F0].
Definition IV5' : list N := [0x76543210; 0xFEDCBA98; 0x89ABCDEF; 0x01234567; 0x3C2D1E0F].

Definition RIPEMD (IV : list N) (compress : list N -> list N -> list N) (os : list N) : list N :=
  md_octets false 4 16 8 0x80 IV compress (4 * length IV) os.
Definition RIPEMD128 := RIPEMD (firstn 4 IV5) RIPEMD128_compress.
Definition RIPEMD160 := RIPEMD IV5 RIPEMD160_compress.
Definition RIPEMD256 := RIPEMD (firstn 4 IV5 ++ firstn 4 IV5') RIPEMD256_compress.
Definition RIPEMD320 := RIPEMD (IV5 ++ IV5') RIPEMD320_compress.

(** Published test vectors: "", "a", "abc". *)
From Coq Require Import String Ascii.
Definition ascii (t : string) : list N := map N_of_ascii (list_ascii_of_string t).
Local Open Scope string_scope.
Example RIPEMD160_abc : be_value (RIPEMD160 (ascii "abc")) = 0x8eb208f7e05d987a9b044a8e98c6b087f15a0bfc.
Proof. vm_compute. reflexivity. Qed.
Example RIPEMD160_empty : be_value (RIPEMD160 []) = 0x9c1185a5c5e9fc54612808977ee8f548b2258d31.
Proof. vm_compute. reflexivity. Qed.
Example RIPEMD128_abc : be_value (RIPEMD128 (ascii "abc")) = 0xc14a12199c66e4ba84636b0f69144c77.
Proof. vm_compute. reflexivity. Qed.
Example RIPEMD256_abc : be_value (RIPEMD256 (ascii "abc")) =
  0xafbd6e228b9d8cbbcef5ca2d03e6dba10ac0bc7dcbe4680e1e42d2e975459b65.
Proof. vm_compute. reflexivity. Qed.
Example RIPEMD256_empty : be_value (RIPEMD256 []) = 0x02ba4c4e5f8ecd1877fc52d64d30e37a2d9774fb1e5d026380ae0168e3c5522d.
Proof. vm_compute. reflexivity. Qed.
Example RIPEMD320_empty : be_value (RIPEMD320 []) =
  0x22d65d5661536cdc75c1fdf5c6de7b41b9f27325ebc61e8557177d705a0ec880151c3a32a00899b8.
Proof. vm_compute. reflexivity. Qed.
Example RIPEMD320_abc : be_value (RIPEMD320 (ascii "abc")) =
  0xde4c01b3054f8930a79d09ae738e92301e5a17085beffdc1b8d116713e74f82fa942d64cdbc4682d.
Proof. vm_compute. reflexivity. Qed.
