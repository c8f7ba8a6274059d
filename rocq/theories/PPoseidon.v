(** * Properties C36, C37, C38, C39, C40, C42, C64: Poseidon

    Specification: SpecPoseidon.v.  Model: MPoseidon.v, MPoseidonTables.v.  [F] is any commutative ring where nothing else
    is said; [P] is the policy; [perm] the permutation and [permM] the model's, which may fail. *)
From Coq Require Import NArith ZArith Znumtheory Arith List Bool.
From Verif Require Import SpecPoseidon MPoseidonTables MPoseidon.
From Verif Require LPoseidonSponge LPoseidonInst LPoseidonStmt LPoseidonModel LPoseidonMDS LZp.
Import ListNotations.
Local Open Scope nat_scope.

(** ** C39: the permutation *)
(** For every ring, matrix, constants and state: constants, S-box, matrix times column. *)
Theorem C39_original_permutation :
  forall (F : ring) (P : base_policy) (M rc : list (list F)) (s : list F), is_ring F -> mina_version P = false ->
  0 < state_words P -> is_square (state_words P) M -> length rc = full_rounds P + part_rounds P ->
  Forall (fun row => length row = state_words P) rc -> length s = state_words P ->
  permute_state P M rc s = Some (poseidon_permutation (sbox_power P) (full_rounds P) (part_rounds P) M rc s).
Proof. exact @LPoseidonStmt.original_any. Qed.
Print Assumptions C39_original_permutation.
(** Mina: S-box, matrix, constants. *)
Theorem C39_mina_permutation :
  forall (F : ring) (P : base_policy) (M rc : list (list F)) (s : list F), is_ring F -> mina_version P = true -> part_rounds P = 0 ->
  0 < state_words P -> is_square (state_words P) M -> length rc = full_rounds P ->
  Forall (fun row => length row = state_words P) rc -> length s = state_words P ->
  permute_state P M rc s = Some (mina_permutation (sbox_power P) (full_rounds P) M rc s).
Proof. exact @LPoseidonStmt.mina_any. Qed.
Print Assumptions C39_mina_permutation.
(** Both are bijections of the states if the S-box is one of the ring and the matrix is invertible. *)
Theorem C39_original_bijection :
  forall (F : ring) (t alpha : nat) (g : F -> F) (RF RP : nat) (M rc : list (list F)), is_ring F ->
  (forall x : F, g (power x alpha) = x /\ power (g x) alpha = x) -> is_square t M -> invertible t M ->
  length rc = RF + RP -> Forall (fun row => length row = t) rc ->
  bijection_of (fun s => length s = t) (poseidon_permutation alpha RF RP M rc).
Proof. exact @LPoseidonStmt.original_bijection. Qed.
Print Assumptions C39_original_bijection.
Theorem C39_mina_bijection :
  forall (F : ring) (t alpha : nat) (g : F -> F) (rounds : nat) (M rc : list (list F)), is_ring F ->
  (forall x : F, g (power x alpha) = x /\ power (g x) alpha = x) -> is_square t M -> invertible t M ->
  length rc = rounds -> Forall (fun row => length row = t) rc ->
  bijection_of (fun s => length s = t) (mina_permutation alpha rounds M rc).
Proof. exact @LPoseidonStmt.mina_bijective. Qed.
Print Assumptions C39_mina_bijection.
(** Every instance with a table: the modulus is prime, and over the integers modulo it the code's permutation is the
    specified one and a bijection. *)
Theorem C39_original_instances :
  forall f Security Rate P mds rc, poseidon_policy Security Rate = Some P -> constants_data f P = Some (mds, rc) ->
  let p := modulus f in
  let perm := poseidon_permutation 5 8 (part_rounds P) (of_table p mds) (of_table p rc) in
  prime p /\ state_words P = Rate + 1 /\
  (forall s, length s = Rate + 1 -> permute_state P (of_table p mds) (of_table p rc) s = Some (perm s)) /\
  bijection_of (fun s => length s = Rate + 1) perm.
Proof. exact LPoseidonStmt.original_instances. Qed.
Print Assumptions C39_original_instances.
Theorem C39_mina_instances :
  forall f mds rc, constants_data f mina_poseidon_policy = Some (mds, rc) ->
  let p := modulus f in
  let perm := mina_permutation 7 55 (of_table p mds) (of_table p rc) in
  prime p /\
  (forall s, length s = 3 -> permute_state mina_poseidon_policy (of_table p mds) (of_table p rc) s = Some (perm s)) /\
  bijection_of (fun s => length s = 3) perm.
Proof. exact LPoseidonStmt.mina_instances. Qed.
Print Assumptions C39_mina_instances.
(** The six instances; the hypotheses of the theorems above hold of them ([good]). *)
Example C39_instances :
  (exists P, poseidon_policy 128 2 = Some P /\ constants_data alt_bn128_scalar P = Some (bn254_2_mds, bn254_2_rc) /\
     constants_data bls12_scalar_381 P = Some (bls12_381_2_mds, bls12_381_2_rc)) /\
  (exists P, poseidon_policy 128 4 = Some P /\ constants_data alt_bn128_scalar P = Some (bn254_4_mds, bn254_4_rc) /\
     constants_data bls12_scalar_381 P = Some (bls12_381_4_mds, bls12_381_4_rc)) /\
  constants_data pallas_base mina_poseidon_policy = Some (pallas_mds, pallas_rc) /\
  constants_data vesta_base mina_poseidon_policy = Some (vesta_mds, vesta_rc) /\
  LPoseidonInst.good bn254_r (base 128 2 1 5 8 57 false) bn254_2_mds bn254_2_rc /\
  LPoseidonInst.good pallas_p mina_poseidon_policy pallas_mds pallas_rc /\ is_ring (Zp pallas_p).
Proof.
  split; [eexists; repeat split|]. split; [eexists; repeat split|]. split; [reflexivity|]. split; [reflexivity|].
  exact (conj LPoseidonInst.good_bn254_2 (conj LPoseidonInst.good_pallas (LZp.zp_ring pallas_p))).
Qed.

(** ** C36: the sponge *)
(** For every ring, policy with capacity 1 and permutation: what a user's calls on one object return, in any order. *)
Theorem C36_calls :
  forall (F : ring) (P : base_policy) (perm : list F -> list F) (permM : list F -> option (list F)),
  capacity P = 1 -> 0 < rate P ->
  (forall s, length s = state_words P -> permM s = Some (perm s) /\ length (perm s) = state_words P) ->
  forall calls : list call, run_calls P permM (new_sponge P) calls = Some (squeezed perm (rate P) zero [] calls).
Proof. exact @LPoseidonSponge.calls_sponge. Qed.
Print Assumptions C36_calls.
(** The overloads of hash<> for iterators and containers, for one element, and with an initial element. *)
Theorem C36_hash_range :
  forall (F : ring) (P : base_policy) (perm : list F -> list F) (permM : list F -> option (list F)),
  capacity P = 1 -> 0 < rate P ->
  (forall s, length s = state_words P -> permM s = Some (perm s) /\ length (perm s) = state_words P) ->
  forall xs : list F, hash_range P permM xs = Some (sponge perm (rate P) xs).
Proof. exact @LPoseidonSponge.hash_range_sponge. Qed.
Print Assumptions C36_hash_range.
Theorem C36_hash_range_initial :
  forall (F : ring) (P : base_policy) (perm : list F -> list F) (permM : list F -> option (list F)),
  capacity P = 1 -> 0 < rate P ->
  (forall s, length s = state_words P -> permM s = Some (perm s) /\ length (perm s) = state_words P) ->
  forall (xs : list F) (initial : F), hash_range_initial P permM xs initial = Some (sponge perm (rate P) (initial :: xs)).
Proof. exact @LPoseidonSponge.hash_range_initial_sponge. Qed.
Print Assumptions C36_hash_range_initial.
Theorem C36_hash_element_initial :
  forall (F : ring) (P : base_policy) (perm : list F -> list F) (permM : list F -> option (list F)),
  capacity P = 1 -> 0 < rate P ->
  (forall s, length s = state_words P -> permM s = Some (perm s) /\ length (perm s) = state_words P) ->
  forall x initial : F, hash_element_initial P permM x initial = Some (sponge perm (rate P) [initial; x]).
Proof. exact @LPoseidonSponge.hash_element_initial_sponge. Qed.
Print Assumptions C36_hash_element_initial.
Theorem C36_hash_element :
  forall (F : ring) (P : base_policy) (perm : list F -> list F) (permM : list F -> option (list F)),
  capacity P = 1 -> 0 < rate P ->
  (forall s, length s = state_words P -> permM s = Some (perm s) /\ length (perm s) = state_words P) ->
  forall x : F, hash_element P permM x = Some (sponge perm (rate P) [x]).
Proof. exact @LPoseidonSponge.hash_element_sponge. Qed.
Print Assumptions C36_hash_element.
(** The instances: the hypotheses above hold. *)
Theorem C36_original_instances :
  forall f Security Rate P mds rc, poseidon_policy Security Rate = Some P -> constants_data f P = Some (mds, rc) ->
  let p := modulus f in
  let perm := poseidon_permutation 5 8 (part_rounds P) (of_table p mds) (of_table p rc) in
  forall xs, hash_range P (permute_state P (of_table p mds) (of_table p rc)) xs = Some (sponge perm Rate xs).
Proof. exact LPoseidonStmt.original_hash. Qed.
Print Assumptions C36_original_instances.
Theorem C36_mina_instances :
  forall f mds rc, constants_data f mina_poseidon_policy = Some (mds, rc) ->
  let p := modulus f in
  let perm := mina_permutation 7 55 (of_table p mds) (of_table p rc) in
  forall xs, hash_range mina_poseidon_policy (permute_state mina_poseidon_policy (of_table p mds) (of_table p rc)) xs = Some (sponge perm 2 xs).
Proof. exact LPoseidonStmt.mina_hash. Qed.
Print Assumptions C36_mina_instances.
(** Calls in which groups are full, not full and empty. *)
Example C36_calls_example :
  let perm := fun s : list (Zp 97) => rev (vadd s (map (to_zp 97) [1; 2; 3]%Z)) in
  let e : Z -> Zp 97 := to_zp 97 in
  option_map (map (@proj1_sig _ _))
    (run_calls (F := Zp 97) (base 128 2 1 5 8 57 false) (fun s => Some (perm s)) (new_sponge (base 128 2 1 5 8 57 false))
       [Absorb (e 5%Z); AbsorbVector [e 6%Z; e 7%Z]; Squeeze; Squeeze; Absorb (e 9%Z); Squeeze]) = Some [2; 3; 4]%Z.
Proof. vm_compute. reflexivity. Qed.

(** ** C37: different sequences *)
(** Refutation of the full property: a zero at the end is not seen, for every permutation and rate of 2 or more. *)
Theorem C37_trailing_zero_refuted :
  forall (F : ring) (P : base_policy) (perm : list F -> list F) (permM : list F -> option (list F)) (a : F),
  capacity P = 1 -> 2 <= rate P ->
  (forall s, length s = state_words P -> permM s = Some (perm s) /\ length (perm s) = state_words P) ->
  exists h, hash_range P permM [a] = Some h /\ hash_range P permM [a; zero] = Some h.
Proof. exact @LPoseidonStmt.trailing_zero. Qed.
Print Assumptions C37_trailing_zero_refuted.
(** What holds: equal results of different sequences of the same length show a collision in the last word of the permutation,
    among the inputs it is given for them. *)
Theorem C37_same_length_partial :
  forall (F : ring) (dec : forall x y : F, {x = y} + {x <> y}) (P : base_policy) (perm : list F -> list F) (permM : list F -> option (list F)),
  capacity P = 1 -> 0 < rate P ->
  (forall s, length s = state_words P -> permM s = Some (perm s) /\ length (perm s) = state_words P) ->
  forall (xs ys : list F) h, length xs = length ys -> hash_range P permM xs = Some h -> hash_range P permM ys = Some h ->
  xs = ys \/ collision perm (permutation_inputs perm (rate P) xs ++ permutation_inputs perm (rate P) ys).
Proof. exact LPoseidonModel.same_length. Qed.
Print Assumptions C37_same_length_partial.
(** Of sequences of any lengths: such a collision, or an input on which that word is zero, or the longer sequence is the other
    followed by zeros that fill up its last group. *)
Theorem C37_collision_partial :
  forall (F : ring) (dec : forall x y : F, {x = y} + {x <> y}) (P : base_policy) (perm : list F -> list F) (permM : list F -> option (list F)),
  capacity P = 1 -> 0 < rate P ->
  (forall s, length s = state_words P -> permM s = Some (perm s) /\ length (perm s) = state_words P) ->
  forall (xs ys : list F) h, length xs <= length ys -> hash_range P permM xs = Some h -> hash_range P permM ys = Some h ->
  (exists n, ys = xs ++ repeat zero n /\ padded (rate P) xs = padded (rate P) ys) \/
  collision perm (permutation_inputs perm (rate P) xs ++ permutation_inputs perm (rate P) ys) \/
  zero_result perm (permutation_inputs perm (rate P) xs ++ permutation_inputs perm (rate P) ys).
Proof. exact LPoseidonModel.any_length. Qed.
Print Assumptions C37_collision_partial.
(** Equality of the elements of Zp is decidable; the refutation applies to all instances with tables. *)
Example C37_hypotheses :
  (forall x y : Zp bn254_r, {x = y} + {x <> y}) *
  (forall f Security Rate P mds rc, poseidon_policy Security Rate = Some P -> constants_data f P = Some (mds, rc) -> capacity P = 1).
Proof.
  split; [exact (LZp.zp_dec bn254_r)|]. intros. destruct (LPoseidonInst.original_cases _ _ _ _ _ _ H H0) as (_ & _ & _ & _ & G). apply G.
Qed.

(** ** C38: integers *)
(** Words of 8 or 16 bits are packed big-endian, as many as fit in word_bits; [of_Z] converts an integer to an element. *)
Theorem C38_packing_partial :
  forall (F : ring) (P : base_policy) (perm : list F -> list F) (permM : list F -> option (list F)),
  capacity P = 1 -> 0 < rate P ->
  (forall s, length s = state_words P -> permM s = Some (perm s) /\ length (perm s) = state_words P) ->
  forall (of_Z : Z -> F) (word_bits : nat),
  (forall a b, of_Z (a + b)%Z = add (of_Z a) (of_Z b)) -> (forall a b, of_Z (a * b)%Z = mul (of_Z a) (of_Z b)) -> of_Z 0%Z = zero ->
  forall w, 0 < w -> w <= word_bits -> w < 32 ->
  forall ws, hash_integers P of_Z word_bits permM w ws = Some (sponge perm (rate P) (map of_Z (packed word_bits w ws))).
Proof. exact @LPoseidonSponge.hash_integers_sponge. Qed.
Print Assumptions C38_packing_partial.
Theorem C38_packing_initial_partial :
  forall (F : ring) (P : base_policy) (perm : list F -> list F) (permM : list F -> option (list F)),
  capacity P = 1 -> 0 < rate P ->
  (forall s, length s = state_words P -> permM s = Some (perm s) /\ length (perm s) = state_words P) ->
  forall (of_Z : Z -> F) (word_bits : nat),
  (forall a b, of_Z (a + b)%Z = add (of_Z a) (of_Z b)) -> (forall a b, of_Z (a * b)%Z = mul (of_Z a) (of_Z b)) -> of_Z 0%Z = zero ->
  forall w, 0 < w -> w <= word_bits -> w < 32 ->
  forall ws initial, hash_integers_initial P of_Z word_bits permM w ws initial =
    Some (sponge perm (rate P) (initial :: map of_Z (packed word_bits w ws))).
Proof. exact @LPoseidonSponge.hash_integers_initial_sponge. Qed.
Print Assumptions C38_packing_initial_partial.
(** Different containers of the same length have different hashes, unless there is a collision of the permutation. *)
Theorem C38_injective_partial :
  forall p P perm permM word_bits w ws ws' h, capacity P = 1 -> 0 < rate P ->
  (forall s, length s = state_words P -> permM s = Some (perm s) /\ length (perm s) = state_words P) ->
  0 < w <= word_bits -> w < 32 -> (2 ^ Z.of_nat (word_bits / w * w) <= p)%Z -> length ws = length ws' ->
  Forall (fun x => 0 <= x < 2 ^ Z.of_nat w)%Z ws -> Forall (fun x => 0 <= x < 2 ^ Z.of_nat w)%Z ws' ->
  hash_integers (F := Zp p) P (to_zp p) word_bits permM w ws = Some h ->
  hash_integers (F := Zp p) P (to_zp p) word_bits permM w ws' = Some h ->
  ws = ws' \/ collision perm (permutation_inputs perm (rate P) (map (to_zp p) (packed word_bits w ws)) ++
                              permutation_inputs perm (rate P) (map (to_zp p) (packed word_bits w ws'))).
Proof. exact LPoseidonModel.integers. Qed.
Print Assumptions C38_injective_partial.
(** Refutations of the full property: a zero word in front is not seen, and with words of 32 or 64 bits the shift of an int
    is undefined for every container that is not empty. *)
Theorem C38_leading_zero_refuted :
  forall (F : ring) (P : base_policy) (perm : list F -> list F) (permM : list F -> option (list F)) (of_Z : Z -> F) word_bits w x,
  capacity P = 1 -> 0 < rate P ->
  (forall s, length s = state_words P -> permM s = Some (perm s) /\ length (perm s) = state_words P) ->
  (forall a b, of_Z (a + b)%Z = add (of_Z a) (of_Z b)) -> (forall a b, of_Z (a * b)%Z = mul (of_Z a) (of_Z b)) -> of_Z 0%Z = zero ->
  0 < w -> w + w <= word_bits -> w < 32 ->
  exists h, hash_integers P of_Z word_bits permM w [x] = Some h /\ hash_integers P of_Z word_bits permM w [0%Z; x] = Some h.
Proof. exact @LPoseidonStmt.leading_zero. Qed.
Print Assumptions C38_leading_zero_refuted.
Theorem C38_wide_words_refuted :
  forall (F : ring) (P : base_policy) (of_Z : Z -> F) word_bits (permM : list F -> option (list F)) w ws,
  32 <= w -> ws <> [] -> hash_integers P of_Z word_bits permM w ws = None.
Proof. exact @LPoseidonStmt.wide_undefined. Qed.
Print Assumptions C38_wide_words_refuted.
(** The conversion to Zp has the assumed properties; 31 bytes fit in an element of 254 bits. *)
Example C38_hypotheses :
  (forall a b, to_zp bn254_r (a + b) = @add (Zp bn254_r) (to_zp bn254_r a) (to_zp bn254_r b)) /\
  (forall a b, to_zp bn254_r (a * b) = @mul (Zp bn254_r) (to_zp bn254_r a) (to_zp bn254_r b)) /\
  to_zp bn254_r 0 = @zero (Zp bn254_r) /\ (2 ^ Z.of_nat (254 / 8 * 8) <= bn254_r)%Z /\
  packed 254 8 (repeat 1%Z 30 ++ [2; 3; 4]%Z) = [0x010101010101010101010101010101010101010101010101010101010101_02; 0x0304]%Z.
Proof.
  split; [exact (LZp.to_zp_add bn254_r)|]. split; [exact (LZp.to_zp_mul bn254_r)|]. split; [reflexivity|]. split; vm_compute; [discriminate|reflexivity].
Qed.

(** ** C40: generate_mds_matrix *)
(** Refutation: whatever is drawn, the matrix has constant rows, its determinant is zero, and the loop goes on. *)
Theorem C40_generation_ends_refuted :
  forall (F : ring), is_ring F -> forall (eqb : F -> F -> bool) (inversed : F -> F) (words : nat) (draws : list (list F * list F)),
  2 <= words -> eqb zero zero = true -> generate_mds_matrix eqb inversed words draws = None.
Proof. exact @LPoseidonStmt.never_generated. Qed.
Print Assumptions C40_generation_ends_refuted.
(** What does hold: a turn of the loop reaches the determinant exactly when the drawn elements are pairwise different, which a
    Cauchy matrix needs; every other draw is refused. *)
Theorem C40_draws_partial :
  forall (F : ring) (eqb : F -> F -> bool) (inversed : F -> F) (words : nat) (x y : list F),
  (forall a b, eqb a b = true <-> a = b) -> length x = words -> length y = words ->
  (mds_rows eqb inversed words x y 0 words <> None <-> NoDup (x ++ y)).
Proof. exact @LPoseidonStmt.draw_kept. Qed.
Print Assumptions C40_draws_partial.
(** In Z/7 the vectors (1, 2), (3, 4) pass the checks on the draws, and a Cauchy matrix for them has a non-zero determinant. *)
Example C40_hypotheses :
  let e : Z -> Zp 7 := to_zp 7 in
  let eqb := fun a b : Zp 7 => Z.eqb (proj1_sig a) (proj1_sig b) in
  let inversed := fun a : Zp 7 => power a 5 in
  is_ring (Zp 7) /\ eqb zero zero = true /\
  mds_rows eqb inversed 2 [e 1; e 2]%Z [e 3; e 4]%Z 0 2 <> None /\
  is_cauchy [e 1; e 2]%Z [e 3; e 4]%Z [[e 3; e 2]; [e 6; e 3]]%Z /\ det 2 [[e 3; e 2]; [e 6; e 3]]%Z <> @zero (Zp 7).
Proof.
  cbv zeta. split; [exact (LZp.zp_ring 7)|]. split; [reflexivity|]. split; [vm_compute; discriminate|]. split.
  - split; [reflexivity|]. split; [repeat constructor|]. intros i j Hi Hj.
    destruct i as [|[|i]]; [| |exfalso; cbn in Hi; do 2 apply Nat.succ_lt_mono in Hi; now apply Nat.nlt_0_r in Hi];
    (destruct j as [|[|j]]; [| |exfalso; cbn in Hj; do 2 apply Nat.succ_lt_mono in Hj; now apply Nat.nlt_0_r in Hj]); apply LZp.zp_eq; vm_compute; reflexivity.
  - intros H. apply (f_equal (@proj1_sig _ _)) in H. vm_compute in H. discriminate H.
Qed.

(** ** C42: the rate *)
Theorem C42_rate_partial :
  forall Security Rate P, poseidon_policy Security Rate = Some P -> ~ (Security = 128 /\ Rate = 8) ->
  rate P = Rate /\ state_words P = Rate + 1.
Proof. exact LPoseidonStmt.rate_kept. Qed.
Print Assumptions C42_rate_partial.
(** The other parameters of every supported pair are the published ones: one element of capacity, x^5, and the rounds of
    a state of Rate + 1 elements. *)
Theorem C42_rounds_published :
  forall Security Rate P, poseidon_policy Security Rate = Some P ->
  security P = Security /\ capacity P = 1 /\ sbox_power P = 5 /\ full_rounds P = 8 /\
  part_rounds P = published_partial_rounds Security (Rate + 1) /\ mina_version P = false.
Proof. exact LPoseidonStmt.rounds_published. Qed.
Print Assumptions C42_rounds_published.
(** The degree that two rounds fewer already reach, 5^(rounds - 2), exceeds 2^Security for each element of the state:
    the margin against interpolation. *)
Theorem C42_degree_margin :
  forall Security Rate P, poseidon_policy Security Rate = Some P ->
  (2 ^ Z.of_nat Security * Z.of_nat (Rate + 1) <= 5 ^ Z.of_nat (full_rounds P + part_rounds P - 2))%Z.
Proof. exact LPoseidonStmt.degree_margin. Qed.
Print Assumptions C42_degree_margin.
(** Refutation: rate 8 gives a policy of rate 4, for which there is no table. *)
Theorem C42_rate_8_refuted :
  exists P, poseidon_policy 128 8 = Some P /\ rate P = 4 /\ forall f, constants_data f P = None.
Proof. eexists. split; [reflexivity|]. split; [reflexivity|]. now intros []. Qed.
Print Assumptions C42_rate_8_refuted.
Example C42_hypotheses : poseidon_policy 256 3 = Some (base 256 3 1 5 8 120 false) /\ ~ (256 = 128 /\ 3 = 8).
Proof. split; [reflexivity|]. now intros [_ H]. Qed.

(** C64: the linear layer of every instance with a table is MDS: states that differ in k of their t words go to
    states that differ in at least t + 1 - k... *)
Theorem C64_linear_layer_mds :
  forall f P mds rc a b,
  P = mina_poseidon_policy \/ (exists Security Rate, poseidon_policy Security Rate = Some P) ->
  constants_data f P = Some (mds, rc) ->
  let p := modulus f in
  let t := state_words P in
  let product := product_with_mds_matrix P (of_table p mds) in
  length a = t -> length b = t -> a <> b -> t + 1 <= differing t a b + differing t (product a) (product b).
Proof. exact (fun f P mds rc a b i c => LPoseidonMDS.product_mds f P mds rc a b (conj c i)). Qed.
Print Assumptions C64_linear_layer_mds.
(** ... and so is every round: states that differ in one word differ in all words after it. *)
Theorem C64_rounds_mds :
  forall f P mds rc r a b,
  P = mina_poseidon_policy \/ (exists Security Rate, poseidon_policy Security Rate = Some P) ->
  constants_data f P = Some (mds, rc) -> r < full_rounds P + part_rounds P ->
  let p := modulus f in
  let t := state_words P in
  let round s := if is_full (full_rounds P) (part_rounds P) r then full_round P (of_table p mds) (of_table p rc) s r
                 else part_round P (of_table p mds) (of_table p rc) s r in
  length a = t -> length b = t -> a <> b ->
  exists a' b', round a = Some a' /\ round b = Some b' /\ length a' = t /\ length b' = t /\
    t + 1 <= differing t a b + differing t a' b'.
Proof. exact (fun f P mds rc r a b i c => LPoseidonMDS.round_mds f P mds rc r a b (conj c i)). Qed.
Print Assumptions C64_rounds_mds.
Example C64_hypotheses :
  let a := map (to_zp pallas_p) [0; 0; 0]%Z in
  let b := map (to_zp pallas_p) [0; 5; 0]%Z in
  constants_data pallas_base mina_poseidon_policy = Some (pallas_mds, pallas_rc) /\ a <> b /\
  differing (p := modulus pallas_base) 3 a b = 1 /\ state_words mina_poseidon_policy = 3 /\
  differing (p := modulus pallas_base) 3 (product_with_mds_matrix mina_poseidon_policy (of_table pallas_p pallas_mds) a)
    (product_with_mds_matrix mina_poseidon_policy (of_table pallas_p pallas_mds) b) = 3.
Proof. exact LPoseidonMDS.pallas_pair. Qed.
