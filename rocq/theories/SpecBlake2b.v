(** * Specification: BLAKE2b, written from RFC 7693

    Nothing of the library is used here. Section numbers are those of the RFC. *)
From Coq Require Import NArith Arith List Bool.
From Verif Require Import SpecStream SpecWords.
Import ListNotations.
Local Open Scope N_scope.

(** 2.1: w = 64, word operations modulo 2^64. *)
Definition add64 (x y : N) : N := (x + y) mod 2 ^ 64.
(** 2.3: x >>> n = (x >> n) ^ (x << (w - n)). *)
Definition rotr64 (x n : N) : N := N.lxor (N.shiftr x n) (N.shiftl x (64 - n) mod 2 ^ 64).

(** 2.6: initialisation vector. *)
Definition IV : list N :=
  [0x6A09E667F3BCC908; 0xBB67AE8584CAA73B; 0x3C6EF372FE94F82B; 0xA54FF53A5F1D36F1;
   0x510E527FADE682D1; 0x9B05688C2B3E6C1F; 0x1F83D9ABFB41BD6B; 0x5BE0CD19137E2179].

(** 2.7: message schedule. *)
Definition SIGMA : list (list nat) :=
  [[0; 1; 2; 3; 4; 5; 6; 7; 8; 9; 10; 11; 12; 13; 14; 15];
   [14; 10; 4; 8; 9; 15; 13; 6; 1; 12; 0; 2; 11; 7; 5; 3];
   [11; 8; 12; 0; 5; 2; 15; 13; 10; 14; 3; 6; 7; 1; 9; 4];
   [7; 9; 3; 1; 13; 12; 11; 14; 2; 6; 5; 10; 4; 0; 15; 8];
   [9; 0; 5; 7; 2; 4; 10; 15; 14; 1; 11; 12; 6; 8; 3; 13];
   [2; 12; 6; 10; 0; 11; 8; 3; 4; 13; 7; 5; 15; 14; 1; 9];
   [12; 5; 1; 15; 14; 13; 4; 10; 0; 7; 6; 3; 9; 2; 8; 11];
   [13; 11; 7; 14; 12; 1; 3; 9; 5; 0; 15; 4; 8; 6; 2; 10];
   [6; 15; 14; 9; 11; 3; 0; 8; 12; 2; 13; 7; 1; 4; 10; 5];
   [10; 2; 8; 4; 7; 6; 1; 5; 15; 11; 9; 14; 3; 12; 13; 0]]%nat.

(** v[i] := x. *)
Definition set (v : list N) (i : nat) (x : N) : list N := firstn i v ++ x :: skipn (S i) v.
Definition get (v : list N) (i : nat) : N := nth i v 0.

(** 3.1: mixing function G, with R1..R4 = 32, 24, 16, 63. *)
Definition G (v : list N) (a b c d : nat) (x y : N) : list N :=
  let v := set v a (add64 (add64 (get v a) (get v b)) x) in
  let v := set v d (rotr64 (N.lxor (get v d) (get v a)) 32) in
  let v := set v c (add64 (get v c) (get v d)) in
  let v := set v b (rotr64 (N.lxor (get v b) (get v c)) 24) in
  let v := set v a (add64 (add64 (get v a) (get v b)) y) in
  let v := set v d (rotr64 (N.lxor (get v d) (get v a)) 16) in
  let v := set v c (add64 (get v c) (get v d)) in
  set v b (rotr64 (N.lxor (get v b) (get v c)) 63).

(** 3.2: one round of cryptographic mixing. *)
Definition mix_round (m : list N) (v : list N) (i : nat) : list N :=
  let s j := nth j (nth (i mod 10) SIGMA []) 0%nat in
  let M j := get m (s j) in
  let v := G v 0 4 8 12 (M 0%nat) (M 1%nat) in
  let v := G v 1 5 9 13 (M 2%nat) (M 3%nat) in
  let v := G v 2 6 10 14 (M 4%nat) (M 5%nat) in
  let v := G v 3 7 11 15 (M 6%nat) (M 7%nat) in
  let v := G v 0 5 10 15 (M 8%nat) (M 9%nat) in
  let v := G v 1 6 11 12 (M 10%nat) (M 11%nat) in
  let v := G v 2 7 8 13 (M 12%nat) (M 13%nat) in
  G v 3 4 9 14 (M 14%nat) (M 15%nat).

(** 3.2: compression function F; [t] is the offset counter, [f] the final block flag. *)
Definition F (h m : list N) (t : N) (f : bool) : list N :=
  let v := h ++ IV in
  let v := set v 12 (N.lxor (get v 12) (t mod 2 ^ 64)) in
  let v := set v 13 (N.lxor (get v 13) (N.shiftr t 64)) in
  let v := if f then set v 14 (N.lxor (get v 14) (2 ^ 64 - 1)) else v in
  let v := fold_left (mix_round m) (seq 0 12) v in
  map (fun i => N.lxor (N.lxor (get h i) (get v i)) (get v (i + 8))) (seq 0 8).

(** 3.3: the data blocks of an unkeyed message: zero-padded to whole blocks of 128 octets, at least
    one block. *)
Definition data_octets (os : list N) : list N :=
  let n := length os in
  os ++ repeat 0 (if n =? 0 then 128 else (128 - n mod 128) mod 128)%nat.
Definition data_blocks (os : list N) : list (list N) :=
  map (le_words 8) (chunks 128 (data_octets os)).

(** Every block but the last, with running counters, then the last one. *)
Fixpoint process (h : list N) (i : nat) (ll : nat) (d : list (list N)) : list N :=
  match d with
  | [] => h
  | [m] => F h m (N.of_nat ll) true
  | m :: d' => process (F h m (N.of_nat ((i + 1) * 128)) false) (i + 1) ll d'
  end.

(** 3.3: unkeyed BLAKE2b with [nn] octets of output. *)
Definition BLAKE2b (nn : nat) (os : list N) : list N :=
  let h := set IV 0 (N.lxor (get IV 0) (N.lxor 0x01010000 (N.of_nat nn))) in
  firstn nn (le_octets 8 (process h 0 (length os) (data_blocks os))).

(** What the library does (property C21): as the RFC says, except that a non-empty message filling
    its last block has that block compressed a first time as a non-final one. *)
Fixpoint non_final (h : list N) (i : nat) (d : list (list N)) : list N :=
  match d with
  | [] => h
  | m :: d' => non_final (F h m (N.of_nat ((i + 1) * 128)) false) (i + 1) d'
  end.
Definition BLAKE2b_observed (nn : nat) (os : list N) : list N :=
  let n := length os in
  if ((n mod 128 =? 0) && negb (n =? 0))%nat then
    let h := set IV 0 (N.lxor (get IV 0) (N.lxor 0x01010000 (N.of_nat nn))) in
    let h := non_final h 0 (data_blocks os) in
    firstn nn (le_octets 8 (F h (le_words 8 (skipn (n - 128) os)) (N.of_nat n) true))
  else BLAKE2b nn os.

(** The same on bit strings: an incomplete last octet is filled with zeros. *)
Definition BLAKE2b_bits_observed (nn : nat) (M : list bool) : list N :=
  if (length M mod 8 =? 0)%nat then BLAKE2b_observed nn (bits_octets M)
  else BLAKE2b nn (bits_octets (M ++ repeat false (8 - length M mod 8))).

(** The calls of F the library makes for an octet string: state, block, counter and final flag of each. *)
Definition F_call : Type := list N * list N * N * bool.
Definition F_value (c : F_call) : list N := let '(h, m, t, f) := c in F h m t f.
Fixpoint non_final_calls (h : list N) (i : nat) (d : list (list N)) : list F_call :=
  match d with
  | [] => []
  | m :: d' => (h, m, N.of_nat ((i + 1) * 128), false) :: non_final_calls (F h m (N.of_nat ((i + 1) * 128)) false) (i + 1) d'
  end.
Definition initial_state (nn : nat) : list N := set IV 0 (N.lxor (get IV 0) (N.lxor 0x01010000 (N.of_nat nn))).
(** The blocks compressed as non-final ones, and the final call. *)
Definition leading_blocks (os : list N) : list (list N) :=
  let n := length os in
  if ((n mod 128 =? 0) && negb (n =? 0))%nat then data_blocks os else removelast (data_blocks os).
Definition final_call (nn : nat) (os : list N) : F_call :=
  (non_final (initial_state nn) 0 (leading_blocks os), last (data_blocks os) [], N.of_nat (length os), true).
Definition observed_calls (nn : nat) (os : list N) : list F_call :=
  non_final_calls (initial_state nn) 0 (leading_blocks os) ++ [final_call nn os].
(** Two different calls, one from each list, with one result. *)
Definition F_collision_among (cs cs' : list F_call) : Prop :=
  exists c c', In c cs /\ In c' cs' /\ c <> c' /\ F_value c = F_value c'.
