(** * Programs with several Poseidon sponges

    For each sponge the specification keeps the element it was last squeezed to (0 if none) and the elements absorbed since
    ([chain], SpecPoseidon.v).  A copy takes both with it. *)
From Coq Require Import Arith List.
From Verif Require Import SpecStream SpecPoseidon SpecStore.
Import ListNotations.

Section Spec.
Context {F : ring} (perm : list F -> list F) (rate : nat).
Fixpoint squeezes (slots : nat -> option (F * list F)) (cs : list (call unit (list F) unit)) : option (list (nat * F)) :=
  match cs with
  | [] => Some []
  | Create i _ :: cs => squeezes (put i (zero, []) slots) cs
  | Update i xs :: cs => match slots i with None => None | Some (c, p) => squeezes (put i (c, p ++ xs) slots) cs end
  | Extract i _ :: cs =>
      match slots i with
      | None => None
      | Some (c, p) => let v := chain perm rate c p in option_map (cons (i, v)) (squeezes (put i (v, []) slots) cs)
      end
  | Copy i k :: cs => match slots i with None => None | Some m => squeezes (put k m slots) cs end
  end.

(** What is read through the reference that squeeze returned, when it returned [v] and [xs] have been absorbed since: [v], with
    every group of [rate] elements but the last chained to it. *)
Definition referred (v : F) (xs : list F) : F :=
  fold_left (absorb_group perm) (chunks rate (firstn ((length xs - 1) / rate * rate) xs)) v.
End Spec.
