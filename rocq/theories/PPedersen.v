(** * Properties C30 (Pedersen), C33, C34, C61, C70: the Pedersen hash

    Specification: SpecPedersen.v (Zcash protocol specification, section 5.4.1.7).  Model: MPedersen.v.
    [zero], [add], [mul] are the group and [base] the base-point generator; [p] is the order of the scalar
    field, [width] the width of its integers and [c] the number of chunks per base point. *)
From Coq Require Import NArith ZArith Arith List Bool.
From Verif Require Import SpecPedersen MPedersen.
From Verif Require LPedersenStmt LPedersenRel LPedersenWrap.
Import ListNotations.

(** C33: for every commutative group and generator, and every bit string fed in any pieces, the result is
    the sum of the segments.  [c] must be at least 2 (is_time_to_go_to_new_segment is never true for 1; the
    fields in use have 62 or 63), and the number of segments at most 2^32. *)
Theorem C33_pedersen_to_point :
  forall (G : Type) (zero : G) (add : G -> G -> G) (mul : Z -> G -> G) (base : N -> G) (p : Z) (width c : nat)
         (pieces : list (list bool)),
  group_laws zero add -> (0 < p)%Z ->
  (forall i z, mul (z mod p)%Z (base i) = mul z (base i)) ->
  2 <= c -> (16 ^ (Z.of_nat c - 1) < 2 ^ Z.of_nat width)%Z ->
  (N.of_nat (length (pad3 (concat pieces))) < 2 ^ 64)%N ->
  (N.of_nat (length (pad3 (concat pieces))) <= N.of_nat (3 * c) * 2 ^ 32)%N ->
  p_run add mul base p width (N.of_nat c) (p_init zero base) (map PUpdate pieces ++ [PExtract]) =
  Some [pedersen_to_point zero add mul (fun i => base (N.of_nat i)) c (concat pieces)].
Proof. exact (@LPedersenStmt.once). Qed.
Print Assumptions C33_pedersen_to_point.

(** The hypotheses hold of the integers modulo 139, with c = 2 and four segments. *)
Example C33_hypotheses :
  group_laws (LPedersenStmt.of_Z 0) LPedersenStmt.add139 /\
  (forall i z, LPedersenStmt.mul139 (z mod 139) (LPedersenStmt.base139 i) = LPedersenStmt.mul139 z (LPedersenStmt.base139 i)) /\
  (16 ^ (Z.of_nat 2 - 1) < 2 ^ Z.of_nat 8)%Z /\
  option_map (map (@proj1_sig _ _))
    (p_run LPedersenStmt.add139 LPedersenStmt.mul139 LPedersenStmt.base139 139 8 2 (p_init (LPedersenStmt.of_Z 0) LPedersenStmt.base139)
       [PUpdate [true; false]; PUpdate (repeat true 18); PExtract]) =
    Some [(((-2 - 4 * 16) * 1 + (-4 - 4 * 16) * 2 + (-4 - 4 * 16) * 3 + 4 * 4) mod 139)%Z].
Proof. split; [exact LPedersenStmt.z139_laws|]. split; [exact LPedersenStmt.z139_mul|]. split; reflexivity. Qed.

(** C33, for the hash that returns bits: the serialised point ([pack] is the external serialisation). *)
Theorem C33_pedersen :
  forall (G B : Type) (zero : G) (add : G -> G -> G) (mul : Z -> G -> G) (base : N -> G) (p : Z) (width c : nat)
         (pack : G -> B) (pieces : list (list bool)),
  group_laws zero add -> (0 < p)%Z ->
  (forall i z, mul (z mod p)%Z (base i) = mul z (base i)) ->
  2 <= c -> (16 ^ (Z.of_nat c - 1) < 2 ^ Z.of_nat width)%Z ->
  (N.of_nat (length (pad3 (concat pieces))) < 2 ^ 64)%N ->
  (N.of_nat (length (pad3 (concat pieces))) <= N.of_nat (3 * c) * 2 ^ 32)%N ->
  pedersen_run zero add mul base p width (N.of_nat c) pack (map PUpdate pieces ++ [PExtract]) =
  Some [pack (pedersen_to_point zero add mul (fun i => base (N.of_nat i)) c (concat pieces))].
Proof. exact (fun G B z a m b p w c k ps => LPedersenRel.run_once z a m b p w c k ps). Qed.
Print Assumptions C33_pedersen.

(** C34: chunks_per_base_point terminates, on every modulus, with the largest c such that
    4 (2^(4c) - 1) / 15 <= (r - 1) / 2. *)
Theorem C34_chunks_per_base_point :
  forall r : N, (0 < r)%N -> exists c, is_chunks_per_segment (Z.of_N r) c /\
  forall fuel, N.to_nat r < fuel -> chunks_per_base_point fuel r 3 = Some (N.of_nat c).
Proof. exact LPedersen.chunks_per_base_point_ok. Qed.
Print Assumptions C34_chunks_per_base_point.
Theorem C34_value_largest :
  forall fuel r c, (0 < r)%N -> chunks_per_base_point fuel r 3 = Some (N.of_nat c) -> is_chunks_per_segment (Z.of_N r) c.
Proof. exact LPedersenStmt.chunks_value. Qed.
Print Assumptions C34_value_largest.
(** Different segments of at most that many chunks have different encodings modulo r, and none is zero. *)
Theorem C34_encodings_differ :
  forall fuel r c s s', (0 < r)%N -> chunks_per_base_point fuel r 3 = Some (N.of_nat c) ->
  Forall chunk_ok s -> Forall chunk_ok s' -> length s <= c -> length s' <= c -> s <> s' ->
  (encode_segment s mod Z.of_N r <> encode_segment s' mod Z.of_N r)%Z.
Proof. exact LPedersenStmt.segments_distinct. Qed.
Print Assumptions C34_encodings_differ.
Theorem C34_encodings_nonzero :
  forall fuel r c s, (0 < r)%N -> chunks_per_base_point fuel r 3 = Some (N.of_nat c) ->
  Forall chunk_ok s -> 0 < length s <= c -> (encode_segment s mod Z.of_N r <> 0)%Z.
Proof. exact LPedersenStmt.segments_nonzero. Qed.
Print Assumptions C34_encodings_nonzero.
(** The order of the Jubjub subgroup gives 63, as in the Zcash specification. *)
Example C34_hypotheses :
  chunks_per_base_point 100 0x0e7db4ea6533afa906673b0101343b00a6682093ccc81082d0970e5ed6f72cb7 3 = Some 63%N.
Proof. vm_compute. reflexivity. Qed.

(** C30: what the histories return.  An extraction leaves the padding in the message, and the term of its
    last segment in every later result. *)
Theorem C30_pedersen_histories_partial :
  forall (G : Type) (zero : G) (add : G -> G -> G) (mul : Z -> G -> G) (base : N -> G) (p : Z) (width c : nat)
         (ops : list pop),
  group_laws zero add -> (0 < p)%Z ->
  (forall i z, mul (z mod p)%Z (base i) = mul z (base i)) ->
  2 <= c -> (16 ^ (Z.of_nat c - 1) < 2 ^ Z.of_nat width)%Z ->
  (N.of_nat (length (final_message [] ops)) < 2 ^ 64)%N ->
  (N.of_nat (length (final_message [] ops)) <= N.of_nat (3 * c) * 2 ^ 32)%N ->
  p_run add mul base p width (N.of_nat c) (p_init zero base) ops =
  Some (pedersen_actual zero add mul (fun i => base (N.of_nat i)) c [] zero ops).
Proof. exact (@LPedersenStmt.histories). Qed.
Print Assumptions C30_pedersen_histories_partial.
(** The same for the hash that returns bits: every extraction returns the serialised point. *)
Theorem C30_pedersen_bits_histories_partial :
  forall (G B : Type) (zero : G) (add : G -> G -> G) (mul : Z -> G -> G) (base : N -> G) (p : Z) (width c : nat)
         (pack : G -> B) (ops : list pop),
  group_laws zero add -> (0 < p)%Z ->
  (forall i z, mul (z mod p)%Z (base i) = mul z (base i)) ->
  2 <= c -> (16 ^ (Z.of_nat c - 1) < 2 ^ Z.of_nat width)%Z ->
  (N.of_nat (length (final_message [] ops)) < 2 ^ 64)%N ->
  (N.of_nat (length (final_message [] ops)) <= N.of_nat (3 * c) * 2 ^ 32)%N ->
  pedersen_run zero add mul base p width (N.of_nat c) pack ops =
  Some (map pack (pedersen_actual zero add mul (fun i => base (N.of_nat i)) c [] zero ops)).
Proof. exact (fun G B z a m b p w c k ops => LPedersenRel.run_histories z a m b p w c k ops). Qed.
Print Assumptions C30_pedersen_bits_histories_partial.
(** Refutation of the full property: for every message, and base points of order [p], two extractions in a
    row differ. *)
Theorem C30_pedersen_repeatable_refuted :
  forall (G : Type) (zero : G) (add : G -> G -> G) (mul : Z -> G -> G) (base : N -> G) (p : Z) (width c : nat)
         (M : list bool),
  group_laws zero add -> (forall x y, add x y = x -> y = zero) -> (0 < p)%Z ->
  (forall i z, mul (z mod p)%Z (base i) = mul z (base i)) ->
  (forall i z, mul z (base i) = zero -> (z mod p = 0)%Z) ->
  is_chunks_per_segment p c ->
  2 <= c -> (16 ^ (Z.of_nat c - 1) < 2 ^ Z.of_nat width)%Z ->
  (N.of_nat (length (pad3 M)) < 2 ^ 64)%N ->
  (N.of_nat (length (pad3 M)) <= N.of_nat (3 * c) * 2 ^ 32)%N ->
  exists g g', p_run add mul base p width (N.of_nat c) (p_init zero base) [PUpdate M; PExtract; PExtract] = Some [g; g'] /\
    g <> g'.
Proof. exact (@LPedersenStmt.never_repeatable). Qed.
Print Assumptions C30_pedersen_repeatable_refuted.
Example C30_pedersen_hypotheses :
  group_laws (LPedersenStmt.of_Z 0) LPedersenStmt.add139 /\
  (forall x y, LPedersenStmt.add139 x y = x -> y = LPedersenStmt.of_Z 0) /\
  (forall i z, LPedersenStmt.mul139 (z mod 139) (LPedersenStmt.base139 i) = LPedersenStmt.mul139 z (LPedersenStmt.base139 i)) /\
  (forall i z, LPedersenStmt.mul139 z (LPedersenStmt.base139 i) = LPedersenStmt.of_Z 0 -> (z mod 139 = 0)%Z) /\
  is_chunks_per_segment 139 2 /\ (16 ^ (Z.of_nat 2 - 1) < 2 ^ Z.of_nat 8)%Z.
Proof.
  exact (conj LPedersenStmt.z139_laws (conj LPedersenStmt.z139_cancel (conj LPedersenStmt.z139_mul
    (conj LPedersenStmt.z139_order (conj LPedersenStmt.c139 eq_refl))))).
Qed.

(** C61: two different messages of one length with the same hash reveal a relation between the base points
    that is not trivial modulo their order... *)
Theorem C61_collision_gives_relation :
  forall (G B : Type) (zero : G) (add : G -> G -> G) (mul : Z -> G -> G) (base : N -> G) (p : Z) (width c : nat)
         (pack : G -> B) (pieces pieces' : list (list bool)) (d : B),
  group_laws zero add -> scalar_laws zero add mul ->
  (forall g g', pack g = pack g' -> g = g') -> (0 < p)%Z ->
  (forall i z, mul (z mod p)%Z (base i) = mul z (base i)) ->
  is_chunks_per_segment p c -> 2 <= c -> (16 ^ (Z.of_nat c - 1) < 2 ^ Z.of_nat width)%Z ->
  (N.of_nat (3 * c) * 2 ^ 32 < 2 ^ 64)%N ->
  (N.of_nat (length (pad3 (concat pieces))) <= N.of_nat (3 * c) * 2 ^ 32)%N ->
  length (concat pieces) = length (concat pieces') -> concat pieces <> concat pieces' ->
  pedersen_run zero add mul base p width (N.of_nat c) pack (map PUpdate pieces ++ [PExtract]) = Some [d] ->
  pedersen_run zero add mul base p width (N.of_nat c) pack (map PUpdate pieces' ++ [PExtract]) = Some [d] ->
  nontrivial_relation zero add mul (fun i => base (N.of_nat i)) p (coefficients c (concat pieces) (concat pieces')).
Proof. exact (fun G B z a m b p w c k ps ps' d => LPedersenRel.collision_same_length z a m b p w c k ps ps' d). Qed.
Print Assumptions C61_collision_gives_relation.
(** ... and so do messages of different lengths, unless they are equal once padded. *)
Theorem C61_collision_any_lengths :
  forall (G B : Type) (zero : G) (add : G -> G -> G) (mul : Z -> G -> G) (base : N -> G) (p : Z) (width c : nat)
         (pack : G -> B) (pieces pieces' : list (list bool)) (d : B),
  group_laws zero add -> scalar_laws zero add mul ->
  (forall g g', pack g = pack g' -> g = g') -> (0 < p)%Z ->
  (forall i z, mul (z mod p)%Z (base i) = mul z (base i)) ->
  is_chunks_per_segment p c -> 2 <= c -> (16 ^ (Z.of_nat c - 1) < 2 ^ Z.of_nat width)%Z ->
  (N.of_nat (3 * c) * 2 ^ 32 < 2 ^ 64)%N ->
  (N.of_nat (length (pad3 (concat pieces))) <= N.of_nat (3 * c) * 2 ^ 32)%N ->
  (N.of_nat (length (pad3 (concat pieces'))) <= N.of_nat (3 * c) * 2 ^ 32)%N ->
  pad3 (concat pieces) <> pad3 (concat pieces') ->
  pedersen_run zero add mul base p width (N.of_nat c) pack (map PUpdate pieces ++ [PExtract]) = Some [d] ->
  pedersen_run zero add mul base p width (N.of_nat c) pack (map PUpdate pieces' ++ [PExtract]) = Some [d] ->
  nontrivial_relation zero add mul (fun i => base (N.of_nat i)) p (coefficients c (concat pieces) (concat pieces')).
Proof. exact (fun G B z a m b p w c k ps ps' d => LPedersenRel.collision z a m b p w c k ps ps' d). Qed.
Print Assumptions C61_collision_any_lengths.
(** Messages that are equal once padded do collide: a message and itself followed by the padding. *)
Theorem C61_padding_not_distinguished :
  forall (G B : Type) (zero : G) (add : G -> G -> G) (mul : Z -> G -> G) (base : N -> G) (p : Z) (width c : nat)
         (pack : G -> B) (M : list bool),
  group_laws zero add -> (0 < p)%Z ->
  (forall i z, mul (z mod p)%Z (base i) = mul z (base i)) ->
  2 <= c -> (16 ^ (Z.of_nat c - 1) < 2 ^ Z.of_nat width)%Z ->
  (N.of_nat (length (pad3 M)) < 2 ^ 64)%N ->
  (N.of_nat (length (pad3 M)) <= N.of_nat (3 * c) * 2 ^ 32)%N ->
  pedersen_run zero add mul base p width (N.of_nat c) pack [PUpdate M; PExtract] =
  pedersen_run zero add mul base p width (N.of_nat c) pack [PUpdate (pad3 M); PExtract].
Proof. exact (fun G B z a m b p w c k M => LPedersenRel.padding_ignored z a m b p w c k M). Qed.
Print Assumptions C61_padding_not_distinguished.
(** A colliding pair in the integers modulo 139; it reveals 16 I_0 - 8 I_1 = 0. *)
Example C61_hypotheses :
  scalar_laws (LPedersenStmt.of_Z 0) LPedersenStmt.add139 LPedersenStmt.mul139 /\
  (forall M, In M [[false; false; false; false; true; false; true; true; true];
                   [false; false; false; true; false; false; true; true; false]] ->
   option_map (map (@proj1_sig _ _))
     (pedersen_run (LPedersenStmt.of_Z 0) LPedersenStmt.add139 LPedersenStmt.mul139 LPedersenStmt.base139 139 8 2 (fun g => g)
       [PUpdate M; PExtract]) = Some [41%Z]) /\
  coefficients 2 [false; false; false; false; true; false; true; true; true]
                 [false; false; false; true; false; false; true; true; false] = [16; -8]%Z.
Proof.
  split; [exact LPedersenRel.z139_scalar|]. split; [|reflexivity].
  intros M [<-|[<-|[]]]; vm_compute; reflexivity.
Qed.

(** C70: what the hash of a message with any number of segments is: the number of a segment is taken modulo
    2^32 to generate its base point.  Missing: base points of their own for the segments from 2^32 on. *)
Theorem C70_any_number_of_segments_partial :
  forall (G B : Type) (zero : G) (add : G -> G -> G) (mul : Z -> G -> G) (base : N -> G) (p : Z) (width c : nat)
         (pack : G -> B) (pieces : list (list bool)),
  group_laws zero add -> (0 < p)%Z ->
  (forall i z, mul (z mod p)%Z (base i) = mul z (base i)) ->
  2 <= c -> (16 ^ (Z.of_nat c - 1) < 2 ^ Z.of_nat width)%Z ->
  (N.of_nat (length (pad3 (concat pieces))) < 2 ^ 64)%N ->
  pedersen_run zero add mul base p width (N.of_nat c) pack (map PUpdate pieces ++ [PExtract]) =
  Some [pack (pedersen_to_point zero add mul (fun i => base (N.of_nat i mod 2 ^ 32)%N) c (concat pieces))].
Proof. exact (fun G B z a m b p w c k ps => LPedersenWrap.run_once_any z a m b p w c k ps). Qed.
Print Assumptions C70_any_number_of_segments_partial.
(** C70 is false: two segments that are 2^32 segments apart can change places without changing the hash,
    whatever the group and the base points. *)
Theorem C70_segments_change_places_refuted :
  forall (G B : Type) (zero : G) (add : G -> G -> G) (mul : Z -> G -> G) (base : N -> G) (p : Z) (width c : nat)
         (pack : G -> B) (A X A' R : list bool),
  group_laws zero add -> (0 < p)%Z ->
  (forall i z, mul (z mod p)%Z (base i) = mul z (base i)) ->
  2 <= c -> (16 ^ (Z.of_nat c - 1) < 2 ^ Z.of_nat width)%Z ->
  length A = 3 * c -> length A' = 3 * c -> (N.of_nat (length X) = (2 ^ 32 - 1) * N.of_nat (3 * c))%N ->
  (N.of_nat (length (pad3 (A ++ X ++ A' ++ R))) < 2 ^ 64)%N ->
  exists d,
  pedersen_run zero add mul base p width (N.of_nat c) pack [PUpdate (A ++ X ++ A' ++ R); PExtract] = Some [d] /\
  pedersen_run zero add mul base p width (N.of_nat c) pack [PUpdate (A' ++ X ++ A ++ R); PExtract] = Some [d].
Proof. exact (fun G B z a m b p w c k A X A' R => LPedersenWrap.swap z a m b p w c k A X A' R). Qed.
Print Assumptions C70_segments_change_places_refuted.
(** Such messages, with c = 2 as in [C33_hypotheses]: A and A' differ. *)
Example C70_hypotheses :
  let A := repeat false 6 in let A' := repeat true 6 in let X := LPedersenWrap.zeros_of_length ((2 ^ 32 - 1) * 6) in
  A <> A' /\ length A = 3 * 2 /\ length A' = 3 * 2 /\ (N.of_nat (length X) = (2 ^ 32 - 1) * N.of_nat (3 * 2))%N /\
  (N.of_nat (length (pad3 (A ++ X ++ A' ++ []))) < 2 ^ 64)%N.
Proof. exact LPedersenWrap.wrap_example. Qed.
