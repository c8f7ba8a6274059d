(** * Model of the default Pedersen hash: base points from find_group_hash over SHA-256 *)
From Coq Require Import NArith ZArith Arith List Bool.
From Verif Require Import SpecStream MPack MAcc SpecPedersen MFgh MPedersen.
From Verif Require MSha.
Import ListNotations.

(** hash<find_group_hash<...>>(range) for a range of [vb]-bit values (algorithm/hash.hpp:159-170 with
    find_group_hash.hpp:109-153). *)
Definition fgh_once (C : construction) (inj : injector) {P : Type} (decode : list N -> option P) (cofactor_mul : P -> P)
    (is_zero well_formed : P -> bool) (fuel : nat) (junk dst : list N) (vb : nat) (xs : list N) : outcome P :=
  match fgh_init C inj junk dst with
  | None => Aborted
  | Some a =>
      match hash_into C inj vb a xs with
      | None => Aborted
      | Some a' => fgh_process C inj decode cofactor_mul is_zero well_formed fuel a'
      end
  end.

Section Default.
(** sha2.hpp with its block cipher (external) and the injector (external). *)
Context (cipher : list N -> list N -> list N) (inj : injector).
(** External: marshalling of a digest into a point of Jubjub, multiplication by the cofactor, is_zero,
    is_well_formed, and the group with a scalar-field element. *)
Context {P : Type} (decode : list N -> option P) (cofactor_mul : P -> P) (is_zero well_formed : P -> bool).
Context (zero : P) (add : P -> P -> P) (mul : Z -> P -> P).
(** The indeterminate cache of the accumulator that generates base point i. *)
Context (junk : N -> list N).

(** pedersen.hpp:96-98 and 125-127 with find_group_hash.hpp:66-153 (template defaults: sha2<256>, "Zcash_PH"):
    hash<base_point_generator>({static_cast<std::uint32_t>(i)}). *)
Definition generate_base_point (fuel : nat) (i : N) : outcome P :=
  fgh_once (MSha.sha2_256 cipher inj) inj decode cofactor_mul is_zero well_formed fuel (junk i) default_dst 32 [i].
(** The base points; a generation that does not return is given [zero] (the program would not continue; the
    theorems ask for generations that return). *)
Definition base_point (fuel : nat) (i : N) : P :=
  match generate_base_point fuel i with Returned q => q | _ => zero end.

(** The order of the scalar field of Jubjub (crypto3-algebra, external; Zcash protocol specification, section 5.4.9.3). *)
Definition jubjub_r : N := 0x0e7db4ea6533afa906673b0101343b00a6682093ccc81082d0970e5ed6f72cb7.
(** pedersen.hpp:89-91: chunks_per_base_point of that field. *)
Definition default_chunks : N := match chunks_per_base_point 100 jubjub_r 3 with Some c => c | None => 0 end.
(** pedersen.hpp:47-196, pedersen_to_point<>, with [width]-bit integers. *)
Definition default_pedersen_to_point (fuel width : nat) (ops : list pop) : option (list P) :=
  p_run add mul (base_point fuel) (Z.of_N jubjub_r) width default_chunks (p_init zero (base_point fuel)) ops.
End Default.
