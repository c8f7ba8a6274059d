(** * Model of the generators of constants: poseidon_constants_generator and reinforced_concrete_lfsr

    Both classes contain the same text for the LFSR (detail/poseidon/poseidon_constants_generator.hpp:119-192,
    detail/reinforced_concrete/reinforced_concrete_lfsr.hpp:61-129), with their own word_bits, state_words,
    full_rounds and part_rounds. *)
From Coq Require Import NArith Arith List Bool.
Import ListNotations.
Local Open Scope N_scope.

(** poseidon_constants_generator.hpp:189-192 on lfsr_state_type, an unchecked 80-bit integer. *)
Definition set_new_bit80 (var : N) (new_bit : bool) : N :=
  N.lor (N.shiftl var 1 mod 2 ^ 80) (if new_bit then 1 else 0).
(** The same on integral_type, which is wide enough for word_bits bits. *)
Definition set_new_bit (var : N) (new_bit : bool) : N := N.lor (N.shiftl var 1) (if new_bit then 1 else 0).
(** poseidon_constants_generator.hpp:185-187. *)
Definition get_lfsr_state_bit (state pos : N) : bool := N.testbit state (80 - 1 - pos).
Definition neq (a b : bool) : bool := negb (Bool.eqb a b).
(** poseidon_constants_generator.hpp:178-183. *)
Definition update_lfsr_state_raw (state : N) : N :=
  let g := get_lfsr_state_bit state in
  let new_bit := neq (neq (neq (neq (neq (g 0) (g 13)) (g 23)) (g 38)) (g 51)) (g 62) in
  set_new_bit80 state new_bit.
(** poseidon_constants_generator.hpp:167-176; [None]: still in the loop after [fuel] turns. *)
Fixpoint update_lfsr_state (fuel : nat) (state : N) : option N :=
  match fuel with
  | O => None
  | S f =>
      let state := update_lfsr_state_raw state in
      if get_lfsr_state_bit state (80 - 1) then Some (update_lfsr_state_raw state)
      else update_lfsr_state f (update_lfsr_state_raw state)
  end.
(** The loops "for (i = k; i >= 0; i--) state = set_new_bit(state, (v >> i) & 1U)". *)
Fixpoint set_bits (k : nat) (v state : N) : N :=
  match k with
  | O => state
  | S i => set_bits i v (set_new_bit80 state (N.odd (N.shiftr v (N.of_nat i))))
  end.
(** poseidon_constants_generator.hpp:144-165. *)
Definition get_lfsr_init_state (word_bits state_words full_rounds part_rounds : N) : N :=
  let state := set_bits 2 1 0 in
  let state := set_bits 4 1 state in
  let state := set_bits 12 word_bits state in
  let state := set_bits 12 state_words state in
  let state := set_bits 10 full_rounds state in
  let state := set_bits 10 part_rounds state in
  let state := Nat.iter 30 (fun state => set_new_bit80 state true) state in
  Nat.iter 160 update_lfsr_state_raw state.

(** poseidon_constants_generator.hpp:129-133: word_bits bits into [constant]. *)
Fixpoint constant_bits (fuel word_bits : nat) (state constant : N) : option (N * N) :=
  match word_bits with
  | O => Some (state, constant)
  | S j =>
      match update_lfsr_state fuel state with
      | None => None
      | Some state => constant_bits fuel j state (set_new_bit constant (get_lfsr_state_bit state (80 - 1)))
      end
  end.
(** poseidon_constants_generator.hpp:127-138: until a constant is below the modulus, at most [tries] times. *)
Fixpoint one_constant (fuel tries word_bits : nat) (modulus state : N) : option (N * N) :=
  match tries with
  | O => None
  | S k =>
      match constant_bits fuel word_bits state 0 with
      | None => None
      | Some (state, constant) =>
          if constant <? modulus then Some (state, constant) else one_constant fuel k word_bits modulus state
      end
  end.
(** poseidon_constants_generator.hpp:125-140 (and reinforced_concrete_lfsr.hpp:65-78), the constants in the
    order in which they are stored. *)
Fixpoint constants_loop (fuel tries number word_bits : nat) (modulus state : N) : option (list N) :=
  match number with
  | O => Some []
  | S k =>
      match one_constant fuel tries word_bits modulus state with
      | None => None
      | Some (state, c) =>
          match constants_loop fuel tries k word_bits modulus state with
          | None => None
          | Some cs => Some (c :: cs)
          end
      end
  end.
(** poseidon_constants_generator.hpp:119-142. *)
Definition generate_round_constants (fuel tries word_bits state_words full_rounds part_rounds : nat) (modulus : N)
  : option (list N) :=
  constants_loop fuel tries ((full_rounds + part_rounds) * state_words) word_bits modulus
    (get_lfsr_init_state (N.of_nat word_bits) (N.of_nat state_words) (N.of_nat full_rounds) (N.of_nat part_rounds)).
(** reinforced_concrete_lfsr.hpp:45-79: constants_number = full_rounds * state_words, full_rounds = 2 * (part_rounds + 1). *)
Definition rc_generate_round_constants (fuel tries word_bits state_words part_rounds : nat) (modulus : N) : option (list N) :=
  let full_rounds := (2 * (part_rounds + 1))%nat in
  constants_loop fuel tries (full_rounds * state_words) word_bits modulus
    (get_lfsr_init_state (N.of_nat word_bits) (N.of_nat state_words) (N.of_nat full_rounds) (N.of_nat part_rounds)).
