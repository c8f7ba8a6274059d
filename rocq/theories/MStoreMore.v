(** * Model: several accumulators of find_group_hash and of hash_to_curve (continues MStore.v) *)
From Coq Require Import NArith ZArith Arith List.
From Verif Require Import MPack MAcc MXmd MFgh MH2C SpecStore MStore.
Import ListNotations.

(** accumulators/hash.hpp:230-275 for find_group_hash (find_group_hash.hpp:109-153): process works on copies of the
    accumulator it is given, which it does not change.  An extraction is observed for a number of turns of its loop; one
    that has not returned is reported as such. *)
Definition fgh_calls (C : construction) (inj : injector) {P : Type} (decode : list N -> option P) (cofactor_mul : P -> P)
    (is_zero well_formed : P -> bool) (dst : list N) :=
  run_store (fun junk => fgh_init C inj junk dst)
            (fun a (u : nat * list N) => hash_into C inj (fst u) a (snd u))
            (fun a (turns : nat) => Some (fgh_process C inj decode cofactor_mul is_zero well_formed turns a, a)).

(** The same for h2c (h2c.hpp:100-116): update and process are those of h2f, the result is mapped to the group. *)
Definition h2c_calls {F G : Type} (C : construction) (inj : injector) (b : nat) (elem : list N -> F) (ep : F -> F -> G)
    (p : N) (m L count : nat) (dst : list N) :=
  run_store (xmd_init C inj)
            (fun a (u : nat * list N) => xmd_update C inj (fst u) a (snd u))
            (fun a (e : (nat -> list N) * list N) =>
               option_map (fun ua => (ep_of elem ep (fst ua), snd ua)) (h2f_process C inj b p m L count (fst e) dst (snd e) a)).
