(** * Threads

    Which accumulators the calls of a thread may use.  [owner i] is the thread accumulator [i] belongs to; [None] stands for
    accumulators that all threads may read and copy, and none may write. *)
From Coq Require Import Arith List.
From Verif Require Import SpecStore.
Import ListNotations.

Definition may_read (owner : nat -> option nat) (t i : nat) : Prop := owner i = Some t \/ owner i = None.
Definition may {J U E : Type} (owner : nat -> option nat) (t : nat) (c : call J U E) : Prop :=
  match c with
  | Create i _ => owner i = Some t
  | Update i _ => owner i = Some t
  | Extract i _ => may_read owner t i
  | Copy i k => may_read owner t i /\ owner k = Some t
  end.
(** The calls made before the threads start take no digests. *)
Definition no_digest {J U E : Type} (c : call J U E) : Prop := match c with Extract _ _ => False | _ => True end.

(** What a thread has been given, when it would be given [all] if it ran alone. *)
Definition part_of {A : Type} (given all : list A) (finished : Prop) : Prop :=
  exists rest, all = given ++ rest /\ (finished -> rest = []).

(** Turns in which a thread can make its calls: an update needs one for each of its values, and three more. *)
Definition turns_needed {J U E : Type} (values : U -> nat) (cs : list (call J U E)) : nat :=
  list_sum (map (fun c => match c with Update _ u => values u + 3 | _ => 1 end) cs).
Definition turns_of (t : nat) (schedule : list nat) : nat := count_occ Nat.eq_dec schedule t.
