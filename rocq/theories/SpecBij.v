(** * Bijections of tuples of words *)
From Coq Require Import NArith List.
From Verif Require Import SpecStream.

Definition words3 (v : N * N * N) : Prop := let '(a, b, c) := v in fits 64 a /\ fits 64 b /\ fits 64 c.
Definition words4 (v : N * N * N * N) : Prop :=
  let '(a, b, c, d) := v in fits 32 a /\ fits 32 b /\ fits 32 c /\ fits 32 d.
Definition words5 (v : N * N * N * N * N) : Prop :=
  let '(a, b, c, d, e) := v in fits 32 a /\ fits 32 b /\ fits 32 c /\ fits 32 d /\ fits 32 e.
(** A bijection of the values that satisfy [P]. *)
Definition bijective_on {A} (P : A -> Prop) (f : A -> A) : Prop :=
  exists inverse, forall v, P v -> P (f v) /\ P (inverse v) /\ inverse (f v) = v /\ f (inverse v) = v.
