(** * Model of BLAKE2b *)
From Coq Require Import NArith Arith List Bool.
From Verif Require Import SpecStream MPack MAcc MConstr.
Import ListNotations.
Local Open Scope N_scope.

(** basic_functions<64>::rotr<k> (sibling repository nil/crypto3/detail/basic_functions.hpp). *)
Definition rotr (w k x : N) : N := N.lor (N.shiftr x k) (N.shiftl x (w - k) mod 2 ^ w).
(** Unsigned 64-bit addition. *)
Definition plus64 (x y : N) : N := (x + y) mod 2 ^ 64.

(** detail/blake2b/blake2b_policy.hpp:53-60: iv_generator. *)
Definition blake2b_iv : list N :=
  [0x6a09e667f3bcc908; 0xbb67ae8584caa73b; 0x3c6ef372fe94f82b; 0xa54ff53a5f1d36f1;
   0x510e527fade682d1; 0x9b05688c2b3e6c1f; 0x1f83d9abfb41bd6b; 0x5be0cd19137e2179].

(** detail/blake2b/blake2b_functions.hpp:45-55: g, on the values of its reference arguments. *)
Definition g (a b c d m0 m1 : N) : N * N * N * N :=
  let a := plus64 (plus64 a b) m0 in
  let d := rotr 64 32 (N.lxor d a) in
  let c := plus64 c d in
  let b := rotr 64 24 (N.lxor b c) in
  let a := plus64 (plus64 a b) m1 in
  let d := rotr 64 16 (N.lxor d a) in
  let c := plus64 c d in
  let b := rotr 64 63 (N.lxor b c) in
  (a, b, c, d).

(** detail/blake2b/blake2b_functions.hpp:57-70: round<i0, ..., iF>(v, M); the template arguments
    are the list [ix]. *)
Definition blake2b_round (M : list N) (v : list N) (ix : list nat) : list N :=
  let m k := nth (nth k ix 0%nat) M 0 in
  match v with
  | [v0; v1; v2; v3; v4; v5; v6; v7; v8; v9; v10; v11; v12; v13; v14; v15] =>
    let '(v0, v4, v8, v12) := g v0 v4 v8 v12 (m 0%nat) (m 1%nat) in
    let '(v1, v5, v9, v13) := g v1 v5 v9 v13 (m 2%nat) (m 3%nat) in
    let '(v2, v6, v10, v14) := g v2 v6 v10 v14 (m 4%nat) (m 5%nat) in
    let '(v3, v7, v11, v15) := g v3 v7 v11 v15 (m 6%nat) (m 7%nat) in
    let '(v0, v5, v10, v15) := g v0 v5 v10 v15 (m 8%nat) (m 9%nat) in
    let '(v1, v6, v11, v12) := g v1 v6 v11 v12 (m 10%nat) (m 11%nat) in
    let '(v2, v7, v8, v13) := g v2 v7 v8 v13 (m 12%nat) (m 13%nat) in
    let '(v3, v4, v9, v14) := g v3 v4 v9 v14 (m 14%nat) (m 15%nat) in
    [v0; v1; v2; v3; v4; v5; v6; v7; v8; v9; v10; v11; v12; v13; v14; v15]
  | _ => v
  end.

(** blake2b.hpp:84-95: the template arguments of the twelve round calls. *)
Definition blake2b_rounds : list (list nat) :=
  [[0; 1; 2; 3; 4; 5; 6; 7; 8; 9; 10; 11; 12; 13; 14; 15];
   [14; 10; 4; 8; 9; 15; 13; 6; 1; 12; 0; 2; 11; 7; 5; 3];
   [11; 8; 12; 0; 5; 2; 15; 13; 10; 14; 3; 6; 7; 1; 9; 4];
   [7; 9; 3; 1; 13; 12; 11; 14; 2; 6; 5; 10; 4; 0; 15; 8];
   [9; 0; 5; 7; 2; 4; 10; 15; 14; 1; 11; 12; 6; 8; 3; 13];
   [2; 12; 6; 10; 0; 11; 8; 3; 4; 13; 7; 5; 15; 14; 1; 9];
   [12; 5; 1; 15; 14; 13; 4; 10; 0; 7; 6; 3; 9; 2; 8; 11];
   [13; 11; 7; 14; 12; 1; 3; 9; 5; 0; 15; 4; 8; 6; 2; 10];
   [6; 15; 14; 9; 11; 3; 0; 8; 12; 2; 13; 7; 1; 4; 10; 5];
   [10; 2; 8; 4; 7; 6; 1; 5; 15; 11; 9; 14; 3; 12; 13; 0];
   [0; 1; 2; 3; 4; 5; 6; 7; 8; 9; 10; 11; 12; 13; 14; 15];
   [14; 10; 4; 8; 9; 15; 13; 6; 1; 12; 0; 2; 11; 7; 5; 3]]%nat.

(** The twelve-round mixing of the sixteen working words, blake2b.hpp:84-95. *)
Definition blake2b_mix (block v : list N) : list N := fold_left (blake2b_round block) blake2b_rounds v.

(** blake2b.hpp:64-100: process_block(state, block, seen, finalizator). *)
Definition blake2b_process_block (state block : list N) (seen finalizator : N) : list N :=
  let v := state ++ blake2b_iv in
  let xor_at i x v := firstn i v ++ N.lxor (nth i v 0) x :: skipn (S i) v in
  let v := xor_at 12%nat (seen / 8 + (if seen mod 8 =? 0 then 0 else 1)) v in
  let v := xor_at 13%nat 0 v in
  let v := xor_at 14%nat finalizator v in
  let v := xor_at 15%nat 0 v in
  let v := blake2b_mix block v in
  map (fun i => N.lxor (nth i state 0) (N.lxor (nth i v 0) (nth (i + 8) v 0))) (seq 0 8).

(** blake2b.hpp:111-147 with detail/blake2b/blake2b_policy.hpp:38-66: word_bits 64, 16 words per
    block, little_octet_big_bit, salt_value all ones. [db] is DigestBits. *)
Definition blake2b (inj : injector) (db : nat) : construction :=
  haifa_construction LOBB 64 16 (db / 8) (haifa_reset db blake2b_iv) blake2b_process_block
    (blake2b_padding inj 64 16) 0xFFFFFFFFFFFFFFFF.

(** Sanity check of the transcription: BLAKE2b-512("abc"), RFC 7693 appendix A. *)
Example blake2b_512_abc :
  hash_once (blake2b (inj_keep LOBB 64 16) 512) (inj_keep LOBB 64 16) 8 (repeat 0 16) [97; 98; 99] =
  Some [0xBA;0x80;0xA5;0x3F;0x98;0x1C;0x4D;0x0D;0x6A;0x27;0x97;0xB6;0x9F;0x12;0xF6;0xE9;
        0x4C;0x21;0x2F;0x14;0x68;0x5A;0xC4;0xB7;0x4B;0x12;0xBB;0x6F;0xDB;0xFF;0xA2;0xD1;
        0x7D;0x87;0xC5;0x39;0x2A;0xAB;0x79;0x2D;0xC2;0x52;0xD5;0xDE;0x45;0x33;0xCC;0x95;
        0x18;0xD3;0x8A;0xA8;0xDB;0xF1;0x92;0x5A;0xB9;0x23;0x86;0xED;0xD4;0x00;0x99;0x23].
Proof. vm_compute. reflexivity. Qed.
