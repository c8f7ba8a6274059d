(** * Specification: field elements taken from uniform octets (RFC 9380, section 5) *)
From Coq Require Import NArith Arith List Bool.
From Verif Require Import SpecStream SpecXmd.
Import ListNotations.

(** Section 5.2, steps 2 to 7: [count] elements of [m] coordinates from L octets each, reduced modulo p. *)
Definition elements (p : N) (m L count : nat) (uniform_bytes : list N) : list (list N) :=
  map (fun i => map (fun j => (OS2IP (firstn L (skipn (L * (j + i * m)) uniform_bytes)) mod p)%N) (seq 0 m)) (seq 0 count).

(** All octet strings of a length. *)
Definition octet_string (n : nat) (u : list N) : Prop := length u = n /\ Forall (fits 8) u.

(** [n] of the strings satisfying [S]: [S] has exactly n members. *)
Definition has_members (S : list N -> Prop) (n : N) : Prop :=
  exists l, NoDup l /\ (forall u, In u l <-> S u) /\ N.of_nat (length l) = n.
