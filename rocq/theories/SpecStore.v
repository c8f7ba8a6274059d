(** * Programs that use several accumulators

    A program creates accumulators, feeds them, takes digests and copies one accumulator over another, in
    any order.  The specification keeps the message of each accumulator; a copy takes the message with it,
    and nothing done to one accumulator changes the message of another. *)
From Coq Require Import NArith Arith List.
From Verif Require Import SpecStream SpecOctets.
Import ListNotations.

(** [J], [U], [E]: what a creation, an update and an extraction are given. *)
Inductive call (J U E : Type) : Type :=
| Create (i : nat) (j : J)
| Update (i : nat) (u : U)
| Extract (i : nat) (e : E)
| Copy (from to : nat).
Arguments Create {J U E}. Arguments Update {J U E}. Arguments Extract {J U E}. Arguments Copy {J U E}.

Definition put {A : Type} (i : nat) (x : A) (slots : nat -> option A) : nat -> option A :=
  fun k => if k =? i then Some x else slots k.
Definition nothing {A : Type} : nat -> option A := fun _ => None.

(** The digests a program must report, with the number of the accumulator each was taken from; [None] for a
    program that uses an accumulator it has not created.  [left] is what an extraction adds to the message. *)
Fixpoint reports {J U E D : Type} (value : U -> list N) (left : list N) (H : list N -> D)
    (slots : nat -> option (list N)) (cs : list (call J U E)) : option (list (nat * D)) :=
  match cs with
  | [] => Some []
  | Create i _ :: cs => reports value left H (put i [] slots) cs
  | Update i u :: cs =>
      match slots i with None => None | Some m => reports value left H (put i (m ++ value u) slots) cs end
  | Extract i _ :: cs =>
      match slots i with
      | None => None
      | Some m => option_map (cons (i, H m)) (reports value left H (put i (m ++ left) slots) cs)
      end
  | Copy i k :: cs => match slots i with None => None | Some m => reports value left H (put k m slots) cs end
  end.

(** The messages that come up in a program. *)
Fixpoint messages {J U E : Type} (value : U -> list N) (left : list N)
    (slots : nat -> option (list N)) (cs : list (call J U E)) : list (list N) :=
  match cs with
  | [] => []
  | Create i _ :: cs => messages value left (put i [] slots) cs
  | Update i u :: cs =>
      match slots i with
      | None => [] | Some m => (m ++ value u) :: messages value left (put i (m ++ value u) slots) cs end
  | Extract i _ :: cs =>
      match slots i with
      | None => [] | Some m => (m ++ left) :: messages value left (put i (m ++ left) slots) cs end
  | Copy i k :: cs => match slots i with None => [] | Some m => messages value left (put k m slots) cs end
  end.

(** Taking every digest from a copy: accumulator 0 is fed, accumulator 1 is a copy that is thrown away. *)
Inductive step (U E : Type) : Type := Feed (u : U) | Digest (e : E).
Arguments Feed {U E}. Arguments Digest {U E}.
Definition from_copies {J U E : Type} (j : J) (ss : list (step U E)) : list (call J U E) :=
  Create 0 j :: flat_map (fun s => match s with Feed u => [Update 0 u] | Digest e => [Copy 0 1; Extract 1 e] end) ss.
(** What it must give: at each point the hash of everything fed so far. *)
Fixpoint digests {A U E D : Type} (value : U -> list A) (H : list A -> D) (m : list A) (ss : list (step U E)) : list D :=
  match ss with
  | [] => []
  | Feed u :: ss => digests value H (m ++ value u) ss
  | Digest _ :: ss => H m :: digests value H m ss
  end.
(** Everything fed. *)
Definition fed_values {A U E : Type} (value : U -> list A) (ss : list (step U E)) : list A :=
  flat_map (fun s => match s with Feed u => value u | Digest _ => [] end) ss.
