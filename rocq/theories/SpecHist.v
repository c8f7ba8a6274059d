(** * Specification of histories of hash calls and extractions on one accumulator *)
From Coq Require Import NArith List.
From Verif Require Import SpecStream MAcc.
Import ListNotations.

(** The digests a history must return: each extraction sees exactly the bits fed so far. *)
Fixpoint expected (e : endian) (D : list bool -> list N) (M : list bool) (ops : list op) : list (list N) :=
  match ops with
  | [] => []
  | OpHash vb xs :: ops' => expected e D (M ++ stream e vb xs) ops'
  | OpExtract :: ops' => D M :: expected e D M ops'
  end.
