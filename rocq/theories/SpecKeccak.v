(** * Specification: Keccak-f[1600], the sponge and SHA-3, from FIPS 202

    Everything is on strings of bits.  Section numbers are those of FIPS 202. *)
From Coq Require Import NArith Arith List Bool.
From Verif Require Import SpecStream.
Import ListNotations.

(** ** 3.1 State arrays *)
Definition sarray := nat -> nat -> nat -> bool.            (* A[x, y, z] *)

(** 3.1.2: A[x,y,z] = S[w(5y+x)+z], w = 64. *)
Definition to_array (S : list bool) : sarray := fun x y z => nth (64 * (5 * y + x) + z) S false.

(** 3.1.3: the string of a state array. *)
Definition to_string (A : sarray) : list bool :=
  map (fun i => A ((i / 64) mod 5) (i / 320) (i mod 64)) (seq 0 1600).

(** ** 3.2 Step mappings *)
(** 3.2.1 theta. *)
Definition col (A : sarray) (x z : nat) : bool :=
  xorb (xorb (xorb (xorb (A x 0 z) (A x 1 z)) (A x 2 z)) (A x 3 z)) (A x 4 z).
Definition theta_D (A : sarray) (x z : nat) : bool :=
  xorb (col A ((x + 4) mod 5) z) (col A ((x + 1) mod 5) ((z + 63) mod 64)).
Definition theta (A : sarray) : sarray := fun x y z => xorb (A x y z) (theta_D A x z).

(** 3.2.2 rho: starting from (x,y) = (1,0), for t = 0..23 the lane (x,y) is rotated by
    (t+1)(t+2)/2 and (x,y) becomes (y, 2x+3y). *)
Fixpoint rho_walk (n t x y : nat) : list (nat * nat * nat) :=
  match n with
  | 0 => []
  | S n' => (x, y, ((t + 1) * (t + 2) / 2) mod 64) :: rho_walk n' (t + 1) y ((2 * x + 3 * y) mod 5)
  end.
Definition rho_offset (x y : nat) : nat :=
  match find (fun p => (fst (fst p) =? x) && (snd (fst p) =? y)) (rho_walk 24 0 1 0) with
  | Some p => snd p
  | None => 0
  end.
Definition rho (A : sarray) : sarray := fun x y z => A x y ((z + (64 - rho_offset x y)) mod 64).

(** 3.2.3 pi. *)
Definition pi (A : sarray) : sarray := fun x y z => A ((x + 3 * y) mod 5) x z.

(** 3.2.4 chi. *)
Definition chi (A : sarray) : sarray := fun x y z =>
  xorb (A x y z) (andb (xorb (A ((x + 1) mod 5) y z) true) (A ((x + 2) mod 5) y z)).

(** 3.2.5 iota.  Algorithm 5: the LFSR bit rc(t); [R] is R[0..7]. *)
Definition rc_step (R : list bool) : list bool :=
  let R9 := false :: R in
  let f := nth 8 R9 false in
  firstn 8 (map (fun i => xorb (nth i R9 false)
                            (if (i =? 0) || (i =? 4) || (i =? 5) || (i =? 6) then f else false))
                (seq 0 9)).
Definition rc (t : nat) : bool :=
  if t mod 255 =? 0 then true
  else nth 0 (Nat.iter (t mod 255) rc_step [true; false; false; false; false; false; false; false]) false.
(** Bit [2^j - 1] of RC is rc(j + 7 ir), j = 0..6, the others are 0. *)
Definition RC (ir z : nat) : bool :=
  existsb (fun j => (z =? 2 ^ j - 1) && rc (j + 7 * ir)) (seq 0 7).
Definition iota (ir : nat) (A : sarray) : sarray := fun x y z =>
  if (x =? 0) && (y =? 0) then xorb (A x y z) (RC ir z) else A x y z.

(** ** 3.3, 3.4: Keccak-f[1600]: 24 rounds. *)
Definition Rnd (ir : nat) (S : list bool) : list bool :=
  to_string (iota ir (chi (pi (rho (theta (to_array S)))))).
Definition keccak_f (S : list bool) : list bool :=
  fold_left (fun S ir => Rnd ir S) (seq 0 24) S.

(** ** 4, 5: the sponge with pad10*1 *)
Definition xor_bits (a b : list bool) : list bool := map (fun p => xorb (fst p) (snd p)) (combine a b).

(** 5.1: pad10*1(r, m). *)
Definition pad10star1 (r m : nat) : list bool :=
  [true] ++ repeat false ((r - (m + 2) mod r) mod r) ++ [true].

(** Algorithm 8, steps 1-7: absorbing the padded string. *)
Definition absorb_block (r : nat) (S P : list bool) : list bool :=
  keccak_f (xor_bits S (P ++ repeat false (1600 - r))).
Definition sponge_absorb (r : nat) (P : list bool) : list bool :=
  fold_left (absorb_block r) (chunks r P) (repeat false 1600).

(** Steps 8-10: squeezing [n] blocks. *)
Fixpoint sponge_squeeze (r n : nat) (S : list bool) : list bool :=
  match n with
  | 0 => []
  | S n' => firstn r S ++ sponge_squeeze r n' (keccak_f S)
  end.

(** SPONGE[KECCAK-f[1600], pad10*1, r](N, d): enough blocks are squeezed for [d] bits. *)
Definition keccak_sponge (r : nat) (N : list bool) (d : nat) : list bool :=
  firstn d (sponge_squeeze r (S (d / r)) (sponge_absorb r (N ++ pad10star1 r (length N)))).

(** 6.1: SHA3-d(M) = KECCAK[2d](M || 01, d); and Keccak itself, without the suffix. *)
Definition SHA3 (d : nat) (M : list bool) : list bool :=
  keccak_sponge (1600 - 2 * d) (M ++ [false; true]) d.
Definition Keccak (d : nat) (M : list bool) : list bool := keccak_sponge (1600 - 2 * d) M d.

(** Appendix B.1: octet strings; in each octet the least significant bit comes first. *)
Definition octets_bits_lsb (os : list N) : list bool := stream LOLB 8 os.
Definition bits_octets_lsb (s : list bool) : list N := words_of_stream LOLB 8 s.

(** The hashes as functions of octet strings. *)
Definition SHA3_octets (d : nat) (os : list N) : list N := bits_octets_lsb (SHA3 d (octets_bits_lsb os)).
Definition Keccak_octets (d : nat) (os : list N) : list N := bits_octets_lsb (Keccak d (octets_bits_lsb os)).
