(** * Specification: MD4, MD5, SHA-0, SHA-1 and SHA-2

    From RFC 1320 (MD4), RFC 1321 (MD5), FIPS 180 (SHA-0) and FIPS 180-4 (SHA-1 and SHA-2), on octet strings.
    Each function is the chaining of a compression function, which adds the chaining value, word by word, to what
    its steps make of it. *)
From Coq Require Import NArith Arith List Bool.
From Verif Require Import SpecStream SpecWords SpecMDOctets.
Import ListNotations.
Local Open Scope N_scope.

(** FIPS 180-4 section 2.2.2 on words of [w] bits. *)
Definition add (w : N) (l : list N) : N := fold_right N.add 0 l mod 2 ^ w.
Definition rotl (w n x : N) : N := (x * 2 ^ n) mod 2 ^ w + x / 2 ^ (w - n).
Definition rotr (w n x : N) : N := rotl w (w - n) x.
Definition shr (n x : N) : N := x / 2 ^ n.
Definition not (w x : N) : N := N.lnot x w.
Definition Ch (w x y z : N) : N := N.lxor (N.land x y) (N.land (not w x) z).
Definition Maj (x y z : N) : N := N.lxor (N.lxor (N.land x y) (N.land x z)) (N.land y z).
Definition Parity (x y z : N) : N := N.lxor (N.lxor x y) z.

(** The result of a compression function: H_i + (the result of the steps)_i. *)
Definition feed_forward (w : N) (H v : list N) : list N := map (fun p => add w [fst p; snd p]) (combine H v).

(** ** SHA-2 *)
Definition primes : list N :=
  [2; 3; 5; 7; 11; 13; 17; 19; 23; 29; 31; 37; 41; 43; 47; 53; 59; 61; 67; 71;
   73; 79; 83; 89; 97; 101; 103; 107; 109; 113; 127; 131; 137; 139; 149; 151; 157; 163; 167; 173;
   179; 181; 191; 193; 197; 199; 211; 223; 227; 229; 233; 239; 241; 251; 257; 263; 269; 271; 277; 281;
   283; 293; 307; 311; 313; 317; 331; 337; 347; 349; 353; 359; 367; 373; 379; 383; 389; 397; 401; 409].
(** The first [w] bits of the fractional parts of square and cube roots. *)
Definition cbrt (n : N) : N :=
  fold_left (fun r i => if (r + 2 ^ i) ^ 3 <=? n then r + 2 ^ i else r) (rev (map N.of_nat (seq 0 68))) 0.
Definition frac_sqrt (w p : N) : N := N.sqrt (p * 2 ^ (2 * w)) mod 2 ^ w.
Definition frac_cbrt (w p : N) : N := cbrt (p * 2 ^ (3 * w)) mod 2 ^ w.

Section Sha2.
Context (w : N) (rounds : nat) (Sigma0 Sigma1 sigma0 sigma1 : N -> N).
(** Sections 4.2.2 and 4.2.3. *)
Definition sha2_K (t : nat) : N := frac_cbrt w (nth t primes 0).
(** Sections 6.2.2 and 6.4.2, step 1. *)
Definition sha2_schedule (M : list N) : list N :=
  fold_left (fun W t => W ++ [add w [sigma1 (nth (t - 2) W 0); nth (t - 7) W 0; sigma0 (nth (t - 15) W 0); nth (t - 16) W 0]])
    (seq 16 (rounds - 16)) M.
(** Step 3. *)
Definition sha2_step (W : list N) (v : list N) (t : nat) : list N :=
  match v with
  | [a; b; c; d; e; f; g; h] =>
      let T1 := add w [h; Sigma1 e; Ch w e f g; sha2_K t; nth t W 0] in
      let T2 := add w [Sigma0 a; Maj a b c] in
      [add w [T1; T2]; a; b; c; add w [d; T1]; e; f; g]
  | _ => v
  end.
Definition sha2_steps (M v : list N) : list N := fold_left (sha2_step (sha2_schedule M)) (seq 0 rounds) v.
End Sha2.

(** Section 4.1.2. *)
Definition sha256_steps : list N -> list N -> list N :=
  sha2_steps 32 64
    (fun x => Parity (rotr 32 2 x) (rotr 32 13 x) (rotr 32 22 x))
    (fun x => Parity (rotr 32 6 x) (rotr 32 11 x) (rotr 32 25 x))
    (fun x => Parity (rotr 32 7 x) (rotr 32 18 x) (shr 3 x))
    (fun x => Parity (rotr 32 17 x) (rotr 32 19 x) (shr 10 x)).
(** Section 4.1.3. *)
Definition sha512_steps : list N -> list N -> list N :=
  sha2_steps 64 80
    (fun x => Parity (rotr 64 28 x) (rotr 64 34 x) (rotr 64 39 x))
    (fun x => Parity (rotr 64 14 x) (rotr 64 18 x) (rotr 64 41 x))
    (fun x => Parity (rotr 64 1 x) (rotr 64 8 x) (shr 7 x))
    (fun x => Parity (rotr 64 19 x) (rotr 64 61 x) (shr 6 x)).
Definition sha256_compress (H M : list N) : list N := feed_forward 32 H (sha256_steps M H).
Definition sha512_compress (H M : list N) : list N := feed_forward 64 H (sha512_steps M H).

(** Section 5.3: the roots of the first eight primes, or of the ninth to the sixteenth; SHA-224 takes the second
    32 bits of the fractional parts. *)
Definition sha256_H0 : list N := map (frac_sqrt 32) (firstn 8 primes).
Definition sha224_H0 : list N := map (fun p => frac_sqrt 64 p mod 2 ^ 32) (firstn 8 (skipn 8 primes)).
Definition sha512_H0 : list N := map (frac_sqrt 64) (firstn 8 primes).
Definition sha384_H0 : list N := map (frac_sqrt 64) (firstn 8 (skipn 8 primes)).

(** Blocks of 16 words, big endian, and a length of two words. *)
Definition SHA224 : list N -> list N := md_octets true 4 16 8 0x80 sha224_H0 sha256_compress 28.
Definition SHA256 : list N -> list N := md_octets true 4 16 8 0x80 sha256_H0 sha256_compress 32.
Definition SHA384 : list N -> list N := md_octets true 8 16 16 0x80 sha384_H0 sha512_compress 48.
Definition SHA512 : list N -> list N := md_octets true 8 16 16 0x80 sha512_H0 sha512_compress 64.

(** ** SHA-1, and SHA-0, whose schedule does not rotate *)
(** Section 4.1.1. *)
Definition sha1_f (t : nat) : N -> N -> N -> N :=
  if (t <? 20)%nat then Ch 32 else if (t <? 40)%nat then Parity else if (t <? 60)%nat then Maj else Parity.
(** Section 4.2.1: 2^30 times the square roots of 2, 3, 5 and 10. *)
Definition sha1_K (t : nat) : N :=
  N.sqrt (2 ^ 60 * (if (t <? 20)%nat then 2 else if (t <? 40)%nat then 3 else if (t <? 60)%nat then 5 else 10)).
(** Section 6.1.2; [r] is 1, and 0 for SHA-0. *)
Definition sha1_schedule (r : N) (M : list N) : list N :=
  fold_left (fun W t => W ++ [rotl 32 r (N.lxor (N.lxor (N.lxor (nth (t - 3) W 0) (nth (t - 8) W 0)) (nth (t - 14) W 0)) (nth (t - 16) W 0))])
    (seq 16 64) M.
Definition sha1_step (W : list N) (v : list N) (t : nat) : list N :=
  match v with
  | [a; b; c; d; e] => [add 32 [rotl 32 5 a; sha1_f t b c d; e; sha1_K t; nth t W 0]; a; rotl 32 30 b; c; d]
  | _ => v
  end.
Definition sha1_steps_with (r : N) (M v : list N) : list N := fold_left (sha1_step (sha1_schedule r M)) (seq 0 80) v.
Definition sha1_steps : list N -> list N -> list N := sha1_steps_with 1.
Definition sha0_steps : list N -> list N -> list N := sha1_steps_with 0.
Definition sha1_H0 : list N := [0x67452301; 0xefcdab89; 0x98badcfe; 0x10325476; 0xc3d2e1f0].
Definition SHA1 : list N -> list N := md_octets true 4 16 8 0x80 sha1_H0 (fun H M => feed_forward 32 H (sha1_steps M H)) 20.
Definition SHA0 : list N -> list N := md_octets true 4 16 8 0x80 sha1_H0 (fun H M => feed_forward 32 H (sha0_steps M H)) 20.

(** ** MD4 and MD5 *)
(** Four registers; the operation [abcd k s i] is done in turn on ABCD, DABC, CDAB and BCDA, which is one shape of
    step on registers that move on by one. *)
Definition md4_round (f : N -> N -> N -> N) (k : N) (order : list nat) (shifts : list N) (X v : list N) : list N :=
  fold_left (fun v (i : nat) =>
    match v with
    | [a; b; c; d] => [d; rotl 32 (nth (i mod 4) shifts 0) (add 32 [a; f b c d; nth (nth i order 0%nat) X 0; k]); b; c]
    | _ => v
    end) (seq 0 16) v.
(** RFC 1320 section 3.4. *)
Definition md4_steps (X v : list N) : list N :=
  let v := md4_round (fun x y z => N.lor (N.land x y) (N.land (not 32 x) z)) 0
             [0; 1; 2; 3; 4; 5; 6; 7; 8; 9; 10; 11; 12; 13; 14; 15]%nat [3; 7; 11; 19] X v in
  let v := md4_round (fun x y z => N.lor (N.lor (N.land x y) (N.land x z)) (N.land y z)) 0x5A827999
             [0; 4; 8; 12; 1; 5; 9; 13; 2; 6; 10; 14; 3; 7; 11; 15]%nat [3; 5; 9; 13] X v in
  md4_round Parity 0x6ED9EBA1
    [0; 8; 4; 12; 2; 10; 6; 14; 1; 9; 5; 13; 3; 11; 7; 15]%nat [3; 9; 11; 15] X v.
Definition md4_H0 : list N := [0x67452301; 0xefcdab89; 0x98badcfe; 0x10325476].
Definition MD4 : list N -> list N := md_octets false 4 16 8 0x80 md4_H0 (fun H M => feed_forward 32 H (md4_steps M H)) 16.

(** RFC 1321 section 3.4: T[i] is the integer part of 4294967296 times abs(sin(i)), i from 1 to 64 in radians. *)
Definition md5_T : list N :=
  [0xd76aa478; 0xe8c7b756; 0x242070db; 0xc1bdceee;
   0xf57c0faf; 0x4787c62a; 0xa8304613; 0xfd469501;
   0x698098d8; 0x8b44f7af; 0xffff5bb1; 0x895cd7be;
   0x6b901122; 0xfd987193; 0xa679438e; 0x49b40821;
   0xf61e2562; 0xc040b340; 0x265e5a51; 0xe9b6c7aa;
   0xd62f105d; 0x02441453; 0xd8a1e681; 0xe7d3fbc8;
   0x21e1cde6; 0xc33707d6; 0xf4d50d87; 0x455a14ed;
   0xa9e3e905; 0xfcefa3f8; 0x676f02d9; 0x8d2a4c8a;
   0xfffa3942; 0x8771f681; 0x6d9d6122; 0xfde5380c;
   0xa4beea44; 0x4bdecfa9; 0xf6bb4b60; 0xbebfbc70;
   0x289b7ec6; 0xeaa127fa; 0xd4ef3085; 0x04881d05;
   0xd9d4d039; 0xe6db99e5; 0x1fa27cf8; 0xc4ac5665;
   0xf4292244; 0x432aff97; 0xab9423a7; 0xfc93a039;
   0x655b59c3; 0x8f0ccc92; 0xffeff47d; 0x85845dd1;
   0x6fa87e4f; 0xfe2ce6e0; 0xa3014314; 0x4e0811a1;
   0xf7537e82; 0xbd3af235; 0x2ad7d2bb; 0xeb86d391].
Definition md5_round (f : N -> N -> N -> N) (round : nat) (word : nat -> nat) (shifts : list N) (X v : list N) : list N :=
  fold_left (fun v (i : nat) =>
    match v with
    | [a; b; c; d] =>
        [d; add 32 [b; rotl 32 (nth (i mod 4) shifts 0) (add 32 [a; f b c d; nth (word i) X 0; nth (16 * round + i)%nat md5_T 0])]; b; c]
    | _ => v
    end) (seq 0 16) v.
Definition md5_steps (X v : list N) : list N :=
  let v := md5_round (fun x y z => N.lor (N.land x y) (N.land (not 32 x) z)) 0 (fun i => i) [7; 12; 17; 22] X v in
  let v := md5_round (fun x y z => N.lor (N.land x z) (N.land y (not 32 z))) 1 (fun i => (5 * i + 1) mod 16)%nat [5; 9; 14; 20] X v in
  let v := md5_round Parity 2 (fun i => (3 * i + 5) mod 16)%nat [4; 11; 16; 23] X v in
  md5_round (fun x y z => N.lxor y (N.lor x (not 32 z))) 3 (fun i => (7 * i) mod 16)%nat [6; 10; 15; 21] X v.
Definition MD5 : list N -> list N := md_octets false 4 16 8 0x80 md4_H0 (fun H M => feed_forward 32 H (md5_steps M H)) 16.
