(** * Model of Poseidon

    Files below are in include/nil/crypto3/hash/detail/poseidon/ unless another one is named.  The field is an
    external library's; it is an argument [F], with its operations.  [pow] is [power].  [None]: the behaviour is
    undefined, or an assertion fails. *)
From Coq Require Import NArith ZArith Arith List Bool.
From Verif Require Import SpecPoseidon MPoseidonTables.
Import ListNotations.

Definition bind {A B} (o : option A) (f : A -> option B) : option B := match o with Some a => f a | None => None end.
(** for (std::size_t i = first; i < first + n; i++) *)
Fixpoint for_loop {A} (n first : nat) (body : nat -> A -> option A) (a : A) : option A :=
  match n with
  | O => Some a
  | S n' => bind (body first a) (for_loop n' (S first) body)
  end.
(** A[i] = v. *)
Definition set_at {A} (l : list A) (i : nat) (v : A) : option (list A) :=
  if i <? length l then Some (firstn i l ++ v :: skipn (S i) l) else None.

(** ** Policies *)
(** poseidon_policy.hpp:29-64, the template parameters of base_poseidon_policy and what it derives from them. *)
Record base_policy := {
  security : nat; rate : nat; capacity : nat; sbox_power : nat; full_rounds : nat; part_rounds : nat; mina_version : bool }.
Definition state_words (P : base_policy) : nat := rate P + capacity P.
Definition block_words (P : base_policy) : nat := rate P.
Definition half_full_rounds (P : base_policy) : nat := Nat.div2 (full_rounds P).
Definition base (s r c b f p : nat) (m : bool) : base_policy :=
  {| security := s; rate := r; capacity := c; sbox_power := b; full_rounds := f; part_rounds := p; mina_version := m |}.
(** poseidon_policy.hpp:86-114; [None]: the template is not defined for these arguments. *)
Definition poseidon_policy (Security Rate : nat) : option base_policy :=
  if Security =? 80 then
    if (Rate =? 1) || (Rate =? 2) then Some (base 80 Rate 1 5 8 33 false)
    else if Rate =? 4 then Some (base 80 4 1 5 8 35 false)
    else None
  else if Security =? 128 then
    if (Rate =? 1) || (Rate =? 2) then Some (base 128 Rate 1 5 8 57 false)
    else if Rate =? 4 then Some (base 128 4 1 5 8 60 false)
    else if Rate =? 8 then Some (base 128 4 1 5 8 63 false)
    else None
  else if Security =? 256 then
    if Rate <=? 4 then Some (base 256 Rate 1 5 8 120 false) else None
  else None.
(** poseidon_policy.hpp:124-125. *)
Definition mina_poseidon_policy : base_policy := base 128 2 1 7 55 0 true.

(** The fields for which there are tables, and the tables: original_constants.hpp:25-33, 388-391, 917-920, 1275-1278
    and 1806-1814 (which [security], [rate], [capacity] and rounds), kimchi_constants.hpp:31, 338, 644-649.  Moduli: the
    external algebra library.  [None]: incomplete type. *)
Inductive field_name := alt_bn128_scalar | bls12_scalar_381 | pallas_base | vesta_base | other_field.
Definition modulus (f : field_name) : Z :=
  match f with
  | alt_bn128_scalar => bn254_r
  | bls12_scalar_381 => bls12_381_r
  | pallas_base => pallas_p
  | vesta_base => vesta_p
  | other_field => 0
  end.
Definition constants_data (f : field_name) (P : base_policy) : option (list (list N) * list (list N)) :=
  if mina_version P then
    match f, block_words P with
    | pallas_base, 2 => Some (pallas_mds, pallas_rc)
    | vesta_base, 2 => Some (vesta_mds, vesta_rc)
    | _, _ => None
    end
  else
    match f, security P, block_words P, capacity P, full_rounds P, part_rounds P with
    | alt_bn128_scalar, 128, 2, 1, 8, 57 => Some (bn254_2_mds, bn254_2_rc)
    | alt_bn128_scalar, 128, 4, 1, 8, 60 => Some (bn254_4_mds, bn254_4_rc)
    | bls12_scalar_381, 128, 2, 1, 8, 57 => Some (bls12_381_2_mds, bls12_381_2_rc)
    | bls12_scalar_381, 128, 4, 1, 8, 60 => Some (bls12_381_4_mds, bls12_381_4_rc)
    | _, _, _, _, _, _ => None
    end.

Section Model.
Context {F : ring} (P : base_policy).
(** constants_data_type::mds_matrix and constants_data_type::round_constants. *)
Context (table_mds table_rc : list (list F)).

(** ** Constants *)
(** poseidon_constants.hpp:52-59: the transposed matrix. *)
Definition mds_matrix : list (list F) :=
  map (fun i => map (fun j => nth i (nth j table_mds []) zero) (seq 0 (state_words P))) (seq 0 (state_words P)).
(** poseidon_constants.hpp:61-64. *)
Definition get_round_constant (round i : nat) : option F := bind (nth_error table_rc round) (fun row => nth_error row i).
(** algebra::vectmatmul (external): the product of a row and a matrix. *)
Definition vectmatmul (v : list F) (m : list (list F)) : list F :=
  map (fun j => sum (map (fun i => mul (nth i v zero) (nth j (nth i m []) zero)) (seq 0 (length v)))) (seq 0 (state_words P)).
(** poseidon_constants.hpp:66-68. *)
Definition product_with_mds_matrix (A : list F) : list F := vectmatmul A mds_matrix.

(** ** Rounds *)
(** A[i] += get_constants().get_round_constant(round_number, i); *)
Definition add_constant (round_number i : nat) (A : list F) : option (list F) :=
  bind (nth_error A i) (fun a => bind (get_round_constant round_number i) (fun c => set_at A i (add a c))).
(** A[i] = A[i].pow(sbox_power); *)
Definition pow_at (i : nat) (A : list F) : option (list F) :=
  bind (nth_error A i) (fun a => set_at A i (power a (sbox_power P))).
Definition full_assert (round_number : nat) : bool :=
  (round_number <? half_full_rounds P) || (half_full_rounds P + part_rounds P <=? round_number).
Definition part_assert (round_number : nat) : bool :=
  (half_full_rounds P <=? round_number) && (round_number <? half_full_rounds P + part_rounds P).
(** poseidon_round_operator.hpp:50-59. *)
Definition full_round_original (A : list F) (round_number : nat) : option (list F) :=
  if full_assert round_number then
    bind (for_loop (state_words P) 0 (fun i A => bind (add_constant round_number i A) (pow_at i)) A)
         (fun A => Some (product_with_mds_matrix A))
  else None.
(** poseidon_round_operator.hpp:61-70. *)
Definition part_round_original (A : list F) (round_number : nat) : option (list F) :=
  if part_assert round_number then
    bind (for_loop (state_words P) 0 (add_constant round_number) A)
      (fun A => bind (pow_at 0 A) (fun A => Some (product_with_mds_matrix A)))
  else None.
(** poseidon_round_operator.hpp:103-114. *)
Definition full_round_mina (A : list F) (round_number : nat) : option (list F) :=
  if full_assert round_number then
    bind (for_loop (state_words P) 0 pow_at A)
      (fun A => for_loop (state_words P) 0 (add_constant round_number) (product_with_mds_matrix A))
  else None.
(** poseidon_round_operator.hpp:116-125. *)
Definition part_round_mina (A : list F) (round_number : nat) : option (list F) :=
  if part_assert round_number then
    bind (pow_at 0 A) (fun A => for_loop (state_words P) 0 (add_constant round_number) (product_with_mds_matrix A))
  else None.
(** poseidon_round_operator.hpp:29-31, 82-84: the specialisation is chosen by mina_version. *)
Definition full_round := if mina_version P then full_round_mina else full_round_original.
Definition part_round := if mina_version P then part_round_mina else part_round_original.

(** ** Permutation *)
(** poseidon_permutation.hpp:44-72; round_number counts on over the three loops. *)
Definition permute_state (A : list F) : option (list F) :=
  bind (for_loop (half_full_rounds P) 0 (fun round_number A => full_round A round_number) A) (fun A =>
  bind (for_loop (part_rounds P) (half_full_rounds P) (fun round_number A => part_round A round_number) A) (fun A =>
  for_loop (full_rounds P - half_full_rounds P) (half_full_rounds P + part_rounds P)
    (fun round_number A => full_round A round_number) A)).

(** ** Sponge *)
Record sponge_object := { state : list F; state_count : nat }.
(** poseidon_sponge.hpp:37-42. *)
Definition new_sponge : sponge_object := {| state := repeat zero (state_words P); state_count := 1 |}.
(** poseidon_sponge.hpp:50-59.  The permutation is an argument so that the sponge can be studied for any. *)
Definition sponge_permute (perm : list F -> option (list F)) (s : sponge_object) : option sponge_object :=
  bind (perm (state s)) (fun st =>
  bind (nth_error st (state_words P - 1)) (fun l =>
  Some {| state := l :: repeat zero (state_words P - 1); state_count := 1 |})).
(** poseidon_sponge.hpp:61-68. *)
Definition absorb_element (perm : list F -> option (list F)) (s : sponge_object) (input : F) : option sponge_object :=
  bind (if state_count s =? state_words P then sponge_permute perm s else Some s) (fun s =>
  bind (set_at (state s) (state_count s) input) (fun st =>
  Some {| state := st; state_count := S (state_count s) |})).
(** poseidon_sponge.hpp:44-48. *)
Fixpoint absorb_vector (perm : list F -> option (list F)) (s : sponge_object) (inputs : list F) : option sponge_object :=
  match inputs with
  | [] => Some s
  | x :: r => bind (absorb_element perm s x) (fun s => absorb_vector perm s r)
  end.
(** poseidon_sponge.hpp:70-73: the reference returned is to state[0]. *)
Definition squeeze (perm : list F -> option (list F)) (s : sponge_object) : option (sponge_object * F) :=
  bind (sponge_permute perm s) (fun s => bind (nth_error (state s) 0) (fun v => Some (s, v))).
(** A user's calls on one object, and the values of the squeezes. *)
Fixpoint run_calls (perm : list F -> option (list F)) (s : sponge_object) (calls : list (@call F)) : option (list F) :=
  match calls with
  | [] => Some []
  | Absorb x :: r => bind (absorb_element perm s x) (fun s => run_calls perm s r)
  | AbsorbVector xs :: r => bind (absorb_vector perm s xs) (fun s => run_calls perm s r)
  | Squeeze :: r => bind (squeeze perm s) (fun sv => bind (run_calls perm (fst sv) r) (fun vs => Some (snd sv :: vs)))
  end.

(** ** include/nil/crypto3/hash/algorithm/hash.hpp *)
(** hash.hpp:176-185 (iterators), 104-116 (iterators, the value goes to *out), 284-297 (container): the loop is the same. *)
Definition hash_range (perm : list F -> option (list F)) (r : list F) : option F :=
  bind (absorb_vector perm new_sponge r) (fun s => bind (squeeze perm s) (fun sv => Some (snd sv))).
(** hash.hpp:267-282. *)
Definition hash_range_initial (perm : list F -> option (list F)) (r : list F) (initial_element : F) : option F :=
  bind (absorb_element perm new_sponge initial_element) (fun s =>
  bind (absorb_vector perm s r) (fun s => bind (squeeze perm s) (fun sv => Some (snd sv)))).
(** hash.hpp:299-311. *)
Definition hash_element_initial (perm : list F -> option (list F)) (element initial_element : F) : option F :=
  bind (absorb_element perm new_sponge initial_element) (fun s =>
  bind (absorb_element perm s element) (fun s => bind (squeeze perm s) (fun sv => Some (snd sv)))).
(** hash.hpp:313-323. *)
Definition hash_element (perm : list F -> option (list F)) (element : F) : option F :=
  bind (absorb_element perm new_sponge element) (fun s => bind (squeeze perm s) (fun sv => Some (snd sv))).

(** hash.hpp:337-349: the loop over the words of an integral container.  [of_Z]: the conversion of an integer to a field
    element; 1 << input_word_size is of type int, of 32 bits. *)
Context (of_Z : Z -> F) (word_bits : nat).
Definition shifted_one (input_word_size : nat) : option Z :=
  if input_word_size <? 32 then Some (2 ^ Z.of_nat input_word_size)%Z else None.
Fixpoint absorb_words (perm : list F -> option (list F)) (input_word_size : nat) (s : sponge_object)
  (next_element : F) (bits_left : nat) (r : list Z) : option (sponge_object * F * nat) :=
  match r with
  | [] => Some (s, next_element, bits_left)
  | word :: r =>
      bind (if bits_left <? input_word_size
            then bind (absorb_element perm s next_element) (fun s => Some (s, zero, word_bits))
            else Some (s, next_element, bits_left)) (fun '(s, next_element, bits_left) =>
      bind (shifted_one input_word_size) (fun m =>
      absorb_words perm input_word_size s (add (mul next_element (of_Z m)) (of_Z word)) (bits_left - input_word_size) r))
  end.
(** hash.hpp:328-356. *)
Definition absorb_integers (perm : list F -> option (list F)) (input_word_size : nat) (s : sponge_object) (r : list Z) : option F :=
  if input_word_size <=? word_bits then
    bind (absorb_words perm input_word_size s zero word_bits r) (fun '(s, next_element, bits_left) =>
    bind (if bits_left =? word_bits then Some s else absorb_element perm s next_element) (fun s =>
    bind (squeeze perm s) (fun sv => Some (snd sv))))
  else None.
(** hash.hpp:358-366. *)
Definition hash_integers_initial (perm : list F -> option (list F)) (input_word_size : nat) (r : list Z) (initial_element : F) : option F :=
  bind (absorb_element perm new_sponge initial_element) (fun s => absorb_integers perm input_word_size s r).
(** hash.hpp:368-374. *)
Definition hash_integers (perm : list F -> option (list F)) (input_word_size : nat) (r : list Z) : option F :=
  absorb_integers perm input_word_size new_sponge r.
End Model.

(** ** Generation of a matrix *)
Section Mds.
Context {F : ring} (eqb : F -> F -> bool) (inversed : F -> F) (words : nat).
(** poseidon_constants_generator.hpp:88-104: row [i], columns [j] onwards; [None]: break. *)
Fixpoint mds_row (x y : list F) (i j n : nat) : option (list F) :=
  match n with
  | O => Some []
  | S n' =>
      let xi := nth i x zero in
      let yi := nth i y zero in
      if (negb (i =? j) && eqb xi (nth j x zero)) || (negb (i =? j) && eqb yi (nth j y zero)) || eqb xi (nth j y zero) then None
      else match mds_row x y i (S j) n' with
           | None => None
           | Some r => Some (inversed (sub xi yi) :: r)
           end
  end.
Fixpoint mds_rows (x y : list F) (i n : nat) : option (list (list F)) :=
  match n with
  | O => Some []
  | S n' =>
      match mds_row x y i 0 words with
      | None => None
      | Some row => match mds_rows x y (S i) n' with None => None | Some rows => Some (row :: rows) end
      end
  end.
(** poseidon_constants_generator.hpp:72-116.  [draws]: the random vectors of each turn of the loop; [None]: the loop has
    not ended after these turns.  The determinant is the external algebra library's. *)
Fixpoint generate_mds_matrix (draws : list (list F * list F)) : option (list (list F)) :=
  match draws with
  | [] => None
  | (x, y) :: r =>
      match mds_rows x y 0 words with
      | None => generate_mds_matrix r
      | Some m => if eqb (det words m) zero then generate_mds_matrix r else Some m
      end
  end.
End Mds.
