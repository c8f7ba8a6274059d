(** * Specification: expand_message_xmd and hash_to_field of RFC 9380 *)
From Coq Require Import NArith Arith List Bool.
From Verif Require Import SpecStream SpecWords.
Import ListNotations.

(** Section 4: I2OSP(x, n) and OS2IP are the big-endian octets of x and their value. *)
Definition I2OSP (x n : nat) : list N := rev (octets_le n (N.of_nat x)).
Definition OS2IP (os : list N) : N := be_value os.
Definition xor_octets (a b : list N) : list N := map (fun p => N.lxor (fst p) (snd p)) (combine a b).

Section Xmd.
(** The hash function, its output size and its input block size in octets. *)
Context (H : list N -> list N) (b_in_bytes s_in_bytes : nat).

(** Section 5.3.1. *)
Definition ceil_div (x y : nat) : nat := (x + y - 1) / y.
Definition DST_prime (DST : list N) : list N := DST ++ I2OSP (length DST) 1.
Definition msg_prime (msg DST : list N) (len : nat) : list N :=
  repeat 0%N s_in_bytes ++ msg ++ I2OSP len 2 ++ I2OSP 0 1 ++ DST_prime DST.
(** Steps 9 and 10: b_(i+1), ..., b_(i+n) from b_i. *)
Fixpoint more_b (DST b0 : list N) (n i : nat) (bi : list N) : list (list N) :=
  match n with
  | O => []
  | S n' => let b := H (xor_octets b0 bi ++ I2OSP (S i) 1 ++ DST_prime DST) in b :: more_b DST b0 n' (S i) b
  end.
Definition expand_message_xmd (msg DST : list N) (len : nat) : list N :=
  let ell := ceil_div len b_in_bytes in
  let b0 := H (msg_prime msg DST len) in
  let b1 := H (b0 ++ I2OSP 1 1 ++ DST_prime DST) in
  firstn len (concat (b1 :: more_b DST b0 (ell - 1) 1 b1)).

(** Section 5.2: hash_to_field, [count] elements of degree [m] over the field of [p] elements. *)
Definition hash_to_field (p : N) (m L count : nat) (msg DST : list N) : list (list N) :=
  let uniform_bytes := expand_message_xmd msg DST (count * m * L) in
  map (fun i => map (fun j => (OS2IP (firstn L (skipn (L * (j + i * m)) uniform_bytes)) mod p)%N) (seq 0 m)) (seq 0 count).
End Xmd.
