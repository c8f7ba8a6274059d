(** * Programs with several Pedersen accumulators

    An accumulator is a message and a point.  An extraction reports the hash of the message plus the point,
    and leaves the padding in the message and the term of the last segment in the point (SpecPedersen.v,
    [pedersen_actual]).  A copy takes both with it, and nothing done to one accumulator changes another. *)
From Coq Require Import NArith ZArith Arith List Bool.
From Verif Require Import SpecStream SpecPedersen SpecStore.
Import ListNotations.

Section Programs.
Context {G : Type} (zero : G) (add : G -> G -> G) (mul : Z -> G -> G) (I : nat -> G) (c : nat).

Fixpoint pedersen_reports (slots : nat -> option (list bool * G)) (cs : list (call unit (list bool) unit)) :
    option (list (nat * G)) :=
  match cs with
  | [] => Some []
  | Create i _ :: cs => pedersen_reports (put i ([], zero) slots) cs
  | Update i bits :: cs =>
      match slots i with
      | None => None
      | Some (M, extra) => pedersen_reports (put i (M ++ bits, extra) slots) cs
      end
  | Extract i _ :: cs =>
      match slots i with
      | None => None
      | Some (M, extra) =>
          option_map (cons (i, add (pedersen_to_point zero add mul I c M) extra))
            (pedersen_reports (put i (pad3 M, add extra (last_term mul I c M)) slots) cs)
      end
  | Copy i k :: cs => match slots i with None => None | Some x => pedersen_reports (put k x slots) cs end
  end.
End Programs.

(** The messages that come up. *)
Fixpoint pedersen_messages (slots : nat -> option (list bool)) (cs : list (call unit (list bool) unit)) : list (list bool) :=
  match cs with
  | [] => []
  | Create i _ :: cs => pedersen_messages (put i [] slots) cs
  | Update i bits :: cs =>
      match slots i with
      | None => [] | Some M => (M ++ bits) :: pedersen_messages (put i (M ++ bits) slots) cs end
  | Extract i _ :: cs =>
      match slots i with None => [] | Some M => pad3 M :: pedersen_messages (put i (pad3 M) slots) cs end
  | Copy i k :: cs => match slots i with None => [] | Some M => pedersen_messages (put k M slots) cs end
  end.
