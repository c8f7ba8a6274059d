(** * Model: several Poseidon sponges, in one thread or several

    detail/poseidon/poseidon_sponge.hpp:23 and 35: the members (state, state_count) are values, so copies are independent. *)
From Coq Require Import NArith Arith List.
From Verif Require Import SpecPoseidon MPoseidon SpecStore MStore MThreads.
Import ListNotations.

Section Sponges.
Context {F : ring} (P : base_policy) (perm : list F -> option (list F)).
Definition sponge_init (_ : unit) : option (@sponge_object F) := Some (new_sponge P).
Definition sponge_extract (s : @sponge_object F) (_ : unit) : option (F * @sponge_object F) :=
  option_map (fun sv => (snd sv, fst sv)) (squeeze P perm s).
Definition poseidon_calls := run_store sponge_init (fun s xs => absorb_vector P perm s xs) sponge_extract.

(** poseidon_sponge.hpp:44-48: absorbing a vector takes a turn for each element and one to return; squeezing is one turn
    (simplified). *)
Definition poseidon_turn (s : @sponge_object F) (xs : list F) : option (@sponge_object F * option (list F)) :=
  match xs with
  | [] => Some (s, None)
  | x :: r => option_map (fun s' => (s', Some r)) (absorb_element P perm s x)
  end.
Definition poseidon_schedule (before : list (call unit (list F) unit)) (calls : nat -> list (call unit (list F) unit))
    (schedule : list nat) :=
  match slots_after sponge_init (fun s xs => absorb_vector P perm s xs) sponge_extract nothing before with
  | None => None
  | Some slots => run_schedule sponge_init (fun xs => xs) poseidon_turn sponge_extract (start slots calls) schedule
  end.

(** poseidon_sponge.hpp:70-73: squeeze returns a reference to state[0]; what is read through it later. *)
Definition read_reference (s : @sponge_object F) : option F := nth_error (state s) 0.
End Sponges.
