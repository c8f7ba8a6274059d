(** * Model of the Pedersen hash (pedersen_to_point) and of its parameter function *)
From Coq Require Import NArith ZArith Arith List Bool.
From Verif Require Import SpecStream MAcc SpecPedersen.
Import ListNotations.
Local Open Scope Z_scope.

(** detail/pedersen/lookup.hpp:42-44: int arithmetic on three bits (the conversion of the negative results
    to the scalar field, external, is assumed to be reduction modulo its order). *)
Definition lookup (bits : list bool) : Z :=
  (1 - 2 * bit (nth 2 bits false)) * (1 + bit (nth 0 bits false) + 2 * bit (nth 1 bits false)).

(** detail/pedersen/basic_functions.hpp:47-50, with chunk_bits = 3 (pedersen.hpp:87). *)
Definition get_test_value (chunk_bits i : N) : N :=
  ((chunk_bits + 1) * ((2 ^ (i * (chunk_bits + 1)) - 1) / (2 ^ (chunk_bits + 1) - 1)))%N.
(** detail/pedersen/basic_functions.hpp:53-58: the loop, stopped after [fuel] steps ([None]).  The integers
    are unbounded (extended_integral_type is wide enough for the fields in use). *)
Fixpoint chunks_loop (fuel : nat) (chunk_bits upper_bound c prev_c : N) : option N :=
  match fuel with
  | O => None
  | S f => if (get_test_value chunk_bits c <=? upper_bound)%N
           then chunks_loop f chunk_bits upper_bound (c + 1) c else Some prev_c
  end.
(** detail/pedersen/basic_functions.hpp:39-59. *)
Definition chunks_per_base_point (fuel : nat) (modulus chunk_bits : N) : option N :=
  chunks_loop fuel chunk_bits ((modulus - 1) / 2)%N 1 0.

Section Pedersen.
(** The group, its operations with a scalar-field element, and the base-point generator
    hash<base_point_generator>({uint32_t}); the scalar field's order and the width of its integral_type;
    chunks_per_base_point. *)
Context {G : Type} (zero : G) (add : G -> G -> G) (mul : Z -> G -> G) (base : N -> G).
Context (p : Z) (width : nat) (c : N).

(** pedersen.hpp:93-103. *)
Record pacc := Mk_pacc {
  bits_supplied : N; cached_bits : list bool; pow_two : Z; encoded_segment : Z; current_base_point : G; result : G }.
Definition p_init : pacc := Mk_pacc 0 [] 1 0 (base 0) zero.

(** pedersen.hpp:106-109. *)
Definition supplied_chunks (a : pacc) : option N :=
  if (bits_supplied a mod 3 =? 0)%N then Some (bits_supplied a / 3)%N else None.
(** pedersen.hpp:111-116. *)
Definition is_time (a : pacc) : option bool :=
  match supplied_chunks a with
  | None => None
  | Some s => Some ((1 <? s)%N && (s mod c =? 1)%N)
  end.
(** pedersen.hpp:118-120. *)
Definition update_result (a : pacc) : pacc :=
  Mk_pacc (bits_supplied a) (cached_bits a) (pow_two a) (encoded_segment a) (current_base_point a)
    (add (result a) (mul (encoded_segment a) (current_base_point a))).
(** pedersen.hpp:122-130. *)
Definition update_new_segment (a : pacc) : option pacc :=
  if (bits_supplied a =? 0)%N then None else
  match is_time a, supplied_chunks a with
  | Some true, Some s =>
      Some (Mk_pacc (bits_supplied a) (cached_bits a) 1 0 (base (s / c mod 2 ^ 32)%N) (result a))
  | _, _ => None
  end.
(** pedersen.hpp:132-142: field arithmetic modulo p; pow_two is an integer of [width] bits. *)
Definition update_current_segment (a : pacc) : option pacc :=
  if negb (length (cached_bits a) =? 3)%nat then None else
  let encoded_chunk := (lookup (cached_bits a) * pow_two a) mod p in
  Some (Mk_pacc (bits_supplied a) [] ((pow_two a * 2 ^ 4) mod 2 ^ Z.of_nat width)
          ((encoded_segment a + encoded_chunk) mod p) (current_base_point a) (result a)).
(** pedersen.hpp:145-155. *)
Definition update_bit (a0 : pacc) (b : bool) : option pacc :=
  let a := Mk_pacc (wrap64 (bits_supplied a0 + 1)) (cached_bits a0 ++ [b]) (pow_two a0) (encoded_segment a0)
             (current_base_point a0) (result a0) in
  if (length (cached_bits a) =? 3)%nat then
    match is_time a with
    | None => None
    | Some true => match update_new_segment (update_result a) with Some a => update_current_segment a | None => None end
    | Some false => update_current_segment a
    end
  else Some a.
(** pedersen.hpp:170-190. *)
Fixpoint update_bits (a : pacc) (bs : list bool) : option pacc :=
  match bs with
  | [] => Some a
  | b :: r => match update_bit a b with Some a => update_bits a r | None => None end
  end.
(** pedersen.hpp:157-162: the loop, stopped after [fuel] steps. *)
Fixpoint pad_loop (fuel : nat) (a : pacc) : option pacc :=
  match fuel with
  | O => None
  | S f =>
      if (match cached_bits a with [] => false | _ => true end) || (bits_supplied a =? 0)%N
      then match update_bit a false with Some a => pad_loop f a | None => None end
      else Some a
  end.
(** pedersen.hpp:157-164 and 192-195: process; the accumulator is changed.  The loop runs at most three
    times (proved: it never runs out of [fuel] = 4). *)
Definition p_process (a : pacc) : option (G * pacc) :=
  match pad_loop 4 a with
  | None => None
  | Some a => let a := update_result a in Some (result a, a)
  end.
(** accumulators/hash.hpp:230-275: updates and extractions on one accumulator. *)
Fixpoint p_run (a : pacc) (ops : list pop) : option (list G) :=
  match ops with
  | [] => Some []
  | PUpdate bs :: r => match update_bits a bs with Some a => p_run a r | None => None end
  | PExtract :: r =>
      match p_process a with
      | None => None
      | Some (g, a) => match p_run a r with Some gs => Some (g :: gs) | None => None end
      end
  end.
(** pedersen.hpp:204-261: pedersen holds an accumulator of pedersen_to_point, forwards the updates to it and
    serialises every result ([pack], external: nil::marshalling::pack of a point, whose status is not checked). *)
Definition pedersen_run {B} (pack : G -> B) (ops : list pop) : option (list B) :=
  match p_run p_init ops with Some gs => Some (map pack gs) | None => None end.
End Pedersen.
