(** * Model of RIPEMD *)
From Coq Require Import NArith Arith List Bool.
From Verif Require Import SpecStream MPack MAcc MConstr.
Import ListNotations.
Local Open Scope N_scope.

(** basic_functions<32>::rotl (sibling repository nil/crypto3/detail/basic_functions.hpp). *)
Definition rotl (w k x : N) : N := N.lor (N.shiftl x k mod 2 ^ w) (N.shiftr x (w - k)).
(** Unsigned 32-bit addition and complement. *)
Definition plus32 (x y : N) : N := (x + y) mod 2 ^ 32.
Definition compl32 (x : N) : N := N.lxor x 0xFFFFFFFF.

(** detail/ripemd/ripemd_functions.hpp:41-69: the functors f1 .. f5. *)
Definition f1 (x y z : N) : N := N.lxor (N.lxor x y) z.
Definition f2 (x y z : N) : N := N.lor (N.land x y) (N.land (compl32 x) z).
Definition f3 (x y z : N) : N := N.lxor (N.lor x (compl32 y)) z.
Definition f4 (x y z : N) : N := N.lor (N.land x z) (N.land y (compl32 z)).
Definition f5 (x y z : N) : N := N.lxor x (N.lor y (compl32 z)).

(** detail/ripemd/ripemd_functions.hpp:71-79: transform on four variables, passed by reference. *)
Definition transform4 (F : N -> N -> N -> N) (v : N * N * N * N) (x k s : N) : N * N * N * N :=
  let '(a, b, c, d) := v in
  let T := rotl 32 s (plus32 (plus32 (plus32 a (F b c d)) x) k) in
  let a := d in
  let d := c in
  let c := b in
  let b := T in
  (a, b, c, d).

(** detail/ripemd/ripemd_functions.hpp:81-90: transform on five variables. *)
Definition transform5 (F : N -> N -> N -> N) (v : N * N * N * N * N) (x k s : N) : N * N * N * N * N :=
  let '(a, b, c, d, e) := v in
  let T := plus32 (rotl 32 s (plus32 (plus32 (plus32 a (F b c d)) x) k)) e in
  let a := e in
  let e := d in
  let d := rotl 32 10 c in
  let c := b in
  let b := T in
  (a, b, c, d, e).

(** detail/ripemd/ripemd_policy.hpp:65-88. *)
Definition r1 : list nat :=
  [0;  1; 2;  3; 4;  5;  6; 7;  8; 9;  10; 11; 12; 13; 14; 15; 7;  4;  13; 1;
   10; 6; 15; 3; 12; 0;  9; 5;  2; 14; 11; 8;  3;  10; 14; 4;  9;  15; 8;  1;
   2;  7; 0;  6; 13; 11; 5; 12; 1; 9;  11; 10; 0;  8;  12; 4;  13; 3;  7;  15;
   14; 5; 6;  2; 4;  0;  5; 9;  7; 12; 2;  10; 14; 1;  3;  8;  11; 6;  15; 13]%nat.
Definition r2 : list nat :=
  [5;  14; 7;  0;  9;  2;  11; 4;  13; 6; 15; 8; 1;  10; 3;  12; 6; 11; 3; 7;
   0;  13; 5;  10; 14; 15; 8;  12; 4;  9; 1;  2; 15; 5;  1;  3;  7; 14; 6; 9;
   11; 8;  12; 2;  10; 0;  4;  13; 8;  6; 4;  1; 3;  11; 15; 0;  5; 12; 2; 13;
   9;  7;  10; 14; 12; 15; 10; 4;  1;  5; 8;  7; 6;  2;  13; 14; 0; 3;  9; 11]%nat.
Definition s1 : list N :=
  [11; 14; 15; 12; 5; 8;  7;  9;  11; 13; 14; 15; 6;  7;  9;  8;  7;  6;  8;  13;
   11; 9;  7;  15; 7; 12; 15; 9;  11; 7;  13; 12; 11; 13; 6;  7;  14; 9;  13; 15;
   14; 8;  13; 6;  5; 12; 7;  5;  11; 12; 14; 15; 14; 15; 9;  8;  9;  14; 5;  6;
   8;  6;  5;  12; 9; 15; 5;  11; 6;  8;  13; 12; 5;  12; 13; 14; 11; 8;  5;  6].
Definition s2 : list N :=
  [8;  9;  9;  11; 13; 15; 15; 5; 7;  7;  8;  11; 14; 14; 12; 6;  9;  13; 15; 7;
   12; 8;  9;  11; 7;  7;  12; 7; 6;  15; 13; 11; 9;  7;  15; 11; 8;  6;  6;  14;
   12; 13; 5;  14; 13; 13; 7;  5; 15; 5;  8;  11; 14; 14; 6;  14; 6;  9;  12; 9;
   12; 5;  15; 8;  8;  5;  12; 9; 12; 5;  14; 6;  8;  13; 6;  5;  15; 13; 11; 11].

(** The loop `for (int j = lo; j < lo + 16; ++j)` of the compressors in ripemd.hpp: one transform of
    line 1 with F1 and k1 and one of line 2 with F2 and k2.  [transform] is [transform4] or
    [transform5]; the state is the pair of the variables of the lines. *)
Definition loop {V} (transform : (N -> N -> N -> N) -> V -> N -> N -> N -> V) (block : list N)
    (lo : nat) (F1 : N -> N -> N -> N) (k1 : N) (F2 : N -> N -> N -> N) (k2 : N) (v : V * V) : V * V :=
  fold_left (fun v j =>
    (transform F1 (fst v) (nth (nth j r1 0%nat) block 0) k1 (nth j s1 0),
     transform F2 (snd v) (nth (nth j r2 0%nat) block 0) k2 (nth j s2 0))) (seq lo 16) v.

(** ripemd.hpp:70-99: the rounds of ripemd_compressor<128>::process_block, on the variables of the two lines. *)
Definition ripemd128_lines (block : list N) (v : (N * N * N * N) * (N * N * N * N)) :=
  let v := loop transform4 block 0 f1 0x00000000 f4 0x50a28be6 v in
  let v := loop transform4 block 16 f2 0x5a827999 f3 0x5c4dd124 v in
  let v := loop transform4 block 32 f3 0x6ed9eba1 f2 0x6d703ef3 v in
  let v := loop transform4 block 48 f4 0x8f1bbcdc f1 0x00000000 v in
  v.

(** ripemd.hpp:58-107: ripemd_compressor<128>::process_block. *)
Definition ripemd128_process_block (state block : list N) : list N :=
  match state with
  | [st0; st1; st2; st3] =>
    let v := ((st0, st1, st2, st3), (st0, st1, st2, st3)) in
    let v := ripemd128_lines block v in
    let '((A1, B1, C1, D1), (A2, B2, C2, D2)) := v in
    let T := plus32 (plus32 st1 C1) D2 in
    let st1 := plus32 (plus32 st2 D1) A2 in
    let st2 := plus32 (plus32 st3 A1) B2 in
    let st3 := plus32 (plus32 st0 B1) C2 in
    let st0 := T in
    [st0; st1; st2; st3]
  | _ => state
  end.

(** ripemd.hpp:117-154: the rounds of ripemd_compressor<160>::process_block, on the variables of the two lines. *)
Definition ripemd160_lines (block : list N) (v : (N * N * N * N * N) * (N * N * N * N * N)) :=
  let v := loop transform5 block 0 f1 0x00000000 f5 0x50a28be6 v in
  let v := loop transform5 block 16 f2 0x5a827999 f4 0x5c4dd124 v in
  let v := loop transform5 block 32 f3 0x6ed9eba1 f3 0x6d703ef3 v in
  let v := loop transform5 block 48 f4 0x8f1bbcdc f2 0x7a6d76e9 v in
  let v := loop transform5 block 64 f5 0xa953fd4e f1 0x00000000 v in
  v.

(** ripemd.hpp:109-163: ripemd_compressor<160>::process_block. *)
Definition ripemd160_process_block (state block : list N) : list N :=
  match state with
  | [st0; st1; st2; st3; st4] =>
    let v := ((st0, st1, st2, st3, st4), (st0, st1, st2, st3, st4)) in
    let v := ripemd160_lines block v in
    let '((A1, B1, C1, D1, E1), (A2, B2, C2, D2, E2)) := v in
    let T := plus32 (plus32 st1 C1) D2 in
    let st1 := plus32 (plus32 st2 D1) E2 in
    let st2 := plus32 (plus32 st3 E1) A2 in
    let st3 := plus32 (plus32 st4 A1) B2 in
    let st4 := plus32 (plus32 st0 B1) C2 in
    let st0 := T in
    [st0; st1; st2; st3; st4]
  | _ => state
  end.

(** std::swap(Y[i], Y[k]) of ripemd.hpp:179,188,197,206 with Y = (Y[0..3], Y[4..7]). *)
Definition swap_0_4 (Y : (N * N * N * N) * (N * N * N * N)) :=
  let '((y0, y1, y2, y3), (y4, y5, y6, y7)) := Y in ((y4, y1, y2, y3), (y0, y5, y6, y7)).
Definition swap_1_5 (Y : (N * N * N * N) * (N * N * N * N)) :=
  let '((y0, y1, y2, y3), (y4, y5, y6, y7)) := Y in ((y0, y5, y2, y3), (y4, y1, y6, y7)).
Definition swap_2_6 (Y : (N * N * N * N) * (N * N * N * N)) :=
  let '((y0, y1, y2, y3), (y4, y5, y6, y7)) := Y in ((y0, y1, y6, y3), (y4, y5, y2, y7)).
Definition swap_3_7 (Y : (N * N * N * N) * (N * N * N * N)) :=
  let '((y0, y1, y2, y3), (y4, y5, y6, y7)) := Y in ((y0, y1, y2, y7), (y4, y5, y6, y3)).

(** ripemd.hpp:173-206: the rounds of ripemd_compressor<256>::process_block, on the variables of the two lines. *)
Definition ripemd256_lines (block : list N) (Y : (N * N * N * N) * (N * N * N * N)) :=
  let Y := swap_0_4 (loop transform4 block 0 f1 0x00000000 f4 0x50a28be6 Y) in
  let Y := swap_1_5 (loop transform4 block 16 f2 0x5a827999 f3 0x5c4dd124 Y) in
  let Y := swap_2_6 (loop transform4 block 32 f3 0x6ed9eba1 f2 0x6d703ef3 Y) in
  let Y := swap_3_7 (loop transform4 block 48 f4 0x8f1bbcdc f1 0x00000000 Y) in
  Y.

(** ripemd.hpp:165-213: ripemd_compressor<256>::process_block. *)
Definition ripemd256_process_block (state block : list N) : list N :=
  match state with
  | [st0; st1; st2; st3; st4; st5; st6; st7] =>
    let Y := ((st0, st1, st2, st3), (st4, st5, st6, st7)) in
    let Y := ripemd256_lines block Y in
    let '((y0, y1, y2, y3), (y4, y5, y6, y7)) := Y in
    [plus32 st0 y0; plus32 st1 y1; plus32 st2 y2; plus32 st3 y3;
     plus32 st4 y4; plus32 st5 y5; plus32 st6 y6; plus32 st7 y7]
  | _ => state
  end.

(** std::swap of ripemd.hpp:229,238,247,256,265 with Y = (Y[0..4], Y[5..9]). *)
Definition swap_1_6 (Y : (N * N * N * N * N) * (N * N * N * N * N)) :=
  let '((y0, y1, y2, y3, y4), (y5, y6, y7, y8, y9)) := Y in ((y0, y6, y2, y3, y4), (y5, y1, y7, y8, y9)).
Definition swap_3_8 (Y : (N * N * N * N * N) * (N * N * N * N * N)) :=
  let '((y0, y1, y2, y3, y4), (y5, y6, y7, y8, y9)) := Y in ((y0, y1, y2, y8, y4), (y5, y6, y7, y3, y9)).
Definition swap_0_5 (Y : (N * N * N * N * N) * (N * N * N * N * N)) :=
  let '((y0, y1, y2, y3, y4), (y5, y6, y7, y8, y9)) := Y in ((y5, y1, y2, y3, y4), (y0, y6, y7, y8, y9)).
Definition swap_2_7 (Y : (N * N * N * N * N) * (N * N * N * N * N)) :=
  let '((y0, y1, y2, y3, y4), (y5, y6, y7, y8, y9)) := Y in ((y0, y1, y7, y3, y4), (y5, y6, y2, y8, y9)).
Definition swap_4_9 (Y : (N * N * N * N * N) * (N * N * N * N * N)) :=
  let '((y0, y1, y2, y3, y4), (y5, y6, y7, y8, y9)) := Y in ((y0, y1, y2, y3, y9), (y5, y6, y7, y8, y4)).

(** ripemd.hpp:223-265: the rounds of ripemd_compressor<320>::process_block, on the variables of the two lines. *)
Definition ripemd320_lines (block : list N) (Y : (N * N * N * N * N) * (N * N * N * N * N)) :=
  let Y := swap_1_6 (loop transform5 block 0 f1 0x00000000 f5 0x50a28be6 Y) in
  let Y := swap_3_8 (loop transform5 block 16 f2 0x5a827999 f4 0x5c4dd124 Y) in
  let Y := swap_0_5 (loop transform5 block 32 f3 0x6ed9eba1 f3 0x6d703ef3 Y) in
  let Y := swap_2_7 (loop transform5 block 48 f4 0x8f1bbcdc f2 0x7a6d76e9 Y) in
  let Y := swap_4_9 (loop transform5 block 64 f5 0xa953fd4e f1 0x00000000 Y) in
  Y.

(** ripemd.hpp:215-272: ripemd_compressor<320>::process_block. *)
Definition ripemd320_process_block (state block : list N) : list N :=
  match state with
  | [st0; st1; st2; st3; st4; st5; st6; st7; st8; st9] =>
    let Y := ((st0, st1, st2, st3, st4), (st5, st6, st7, st8, st9)) in
    let Y := ripemd320_lines block Y in
    let '((y0, y1, y2, y3, y4), (y5, y6, y7, y8, y9)) := Y in
    [plus32 st0 y0; plus32 st1 y1; plus32 st2 y2; plus32 st3 y3; plus32 st4 y4;
     plus32 st5 y5; plus32 st6 y6; plus32 st7 y7; plus32 st8 y8; plus32 st9 y9]
  | _ => state
  end.

(** detail/ripemd/ripemd_policy.hpp:125-130, 144-149, 163-169, 183-190: iv_generator. *)
Definition ripemd128_iv : list N := [0x67452301; 0xefcdab89; 0x98badcfe; 0x10325476].
Definition ripemd160_iv : list N := [0x67452301; 0xefcdab89; 0x98badcfe; 0x10325476; 0xc3d2e1f0].
Definition ripemd256_iv : list N :=
  [0x67452301; 0xefcdab89; 0x98badcfe; 0x10325476; 0x76543210; 0xfedcba98; 0x89abcdef; 0x01234567].
Definition ripemd320_iv : list N :=
  [0x67452301; 0xefcdab89; 0x98badcfe; 0x10325476; 0xc3d2e1f0;
   0x76543210; 0xfedcba98; 0x89abcdef; 0x01234567; 0x3c2d1e0f].

(** ripemd.hpp:274-328 with detail/ripemd/ripemd_policy.hpp:38-55: the construction of ripemd<DigestBits>:
    32-bit words, 512-bit blocks, 64-bit length field, little_octet_big_bit digest order,
    [dw] = digest_bits / 32 words of state as digest. *)
Definition ripemd (dw : nat) (iv : list N) (process_block : list N -> list N -> list N) (inj : injector) : construction :=
  md_construction LOBB 32 16 64 dw iv process_block (merkle_damgard_padding inj LOBB 32 16).
Definition ripemd128 := ripemd 4 ripemd128_iv ripemd128_process_block.
Definition ripemd160 := ripemd 5 ripemd160_iv ripemd160_process_block.
Definition ripemd256 := ripemd 8 ripemd256_iv ripemd256_process_block.
Definition ripemd320 := ripemd 10 ripemd320_iv ripemd320_process_block.
