(** * Ranges whose reading fails

    Reading a range gives values, one after the other, until it ends or an iterator throws an exception ([None]). *)
From Coq Require Import NArith List.
From Verif Require Import SpecStore.
Import ListNotations.

(** The values read before the exception, and whether there is one. *)
Fixpoint read_before {A : Type} (rs : list (option A)) : list A :=
  match rs with Some x :: r => x :: read_before r | _ => [] end.
Definition throws {A : Type} (rs : list (option A)) : Prop := In None rs.

(** The program in which every range ends where reading it fails. *)
Definition shortened {J U U' E : Type} (short : U' -> U) (cs : list (call J U' E)) : list (call J U E) :=
  map (fun c => match c with
       | Create i j => Create i j
       | Update i u => Update i (short u)
       | Extract i e => Extract i e
       | Copy i k => Copy i k
       end) cs.
