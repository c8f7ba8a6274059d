(** * Specification: the Pedersen hash of the Zcash protocol specification (section 5.4.1.7)

    PedersenHashToPoint: pad with zero bits to a multiple of 3, split into segments of at most c chunks,
    and add up the [<M_i>] I_i. *)
From Coq Require Import ZArith Arith List Bool.
From Verif Require Import SpecStream.
Import ListNotations.
Local Open Scope Z_scope.

Definition bit (b : bool) : Z := if b then 1 else 0.
(** enc of a chunk s0 s1 s2. *)
Definition enc (chunk : list bool) : Z :=
  (1 - 2 * bit (nth 2 chunk false)) * (1 + bit (nth 0 chunk false) + 2 * bit (nth 1 chunk false)).
(** <M_i> = sum over j = 1 .. k_i of enc(m_j) 2^(4 (j - 1)). *)
Fixpoint encode_segment (chunks : list (list bool)) : Z :=
  match chunks with
  | [] => 0
  | m :: r => enc m + 16 * encode_segment r
  end.

(** Zero bits up to a multiple of three; the empty string, which Zcash does not hash, is padded to one chunk. *)
Definition pad3 (M : list bool) : list bool :=
  M ++ repeat false (match M with [] => 3 | _ => (3 - length M mod 3) mod 3 end).
(** The segments: lists of at most [c] chunks. *)
Definition groups {A} (n : nat) (l : list A) : list (list A) :=
  chunks n l ++ (if (length l mod n =? 0)%nat then [] else [skipn (length l / n * n) l]).
Definition segments (c : nat) (M : list bool) : list (list (list bool)) := groups c (groups 3 M).

Section Group.
Context {G : Type} (zero : G) (add : G -> G -> G) (mul : Z -> G -> G) (I : nat -> G).
(** [<M_i>] I_i + [<M_(i+1)>] I_(i+1) + ... *)
Fixpoint sum_segments (i : nat) (segs : list (list (list bool))) : G :=
  match segs with
  | [] => zero
  | s :: r => add (mul (encode_segment s) (I i)) (sum_segments (S i) r)
  end.
Definition pedersen_to_point (c : nat) (M : list bool) : G := sum_segments 0 (segments c (pad3 M)).
End Group.

(** 5.4.1.7: c is the largest integer such that 4 (2^(4 c) - 1) / 15 <= (r - 1) / 2. *)
Definition is_chunks_per_segment (r : Z) (c : nat) : Prop :=
  4 * ((2 ^ (4 * Z.of_nat c) - 1) / 15) <= (r - 1) / 2 /\
  forall c', 4 * ((2 ^ (4 * Z.of_nat c') - 1) / 15) <= (r - 1) / 2 -> (c' <= c)%nat.

(** 5.4.9.3: the order of the prime-order subgroup of Jubjub. *)
Definition jubjub_order : Z := 6554484396890773809930967563523245729705921265872317281365359162392183254199.

(** Chunks are triples of bits. *)
Definition chunk_ok (m : list bool) : Prop := length m = 3%nat.

(** What a commutative group satisfies. *)
Record group_laws {G} (zero : G) (add : G -> G -> G) : Prop := {
  gl_assoc : forall x y z, add x (add y z) = add (add x y) z;
  gl_comm : forall x y, add x y = add y x;
  gl_zero : forall x, add zero x = x }.

(** What a history of updates and extractions must return if extraction changed nothing. *)
Inductive pop := PUpdate (bits : list bool) | PExtract.
Fixpoint pedersen_expected {A} (H : list bool -> A) (M : list bool) (ops : list pop) : list A :=
  match ops with
  | [] => []
  | PUpdate bits :: r => pedersen_expected H (M ++ bits) r
  | PExtract :: r => H M :: pedersen_expected H M r
  end.

(** What a history returns when every extraction leaves the padding in the message and adds the term of the
    last segment to all later results. *)
Section Actual.
Context {G : Type} (zero : G) (add : G -> G -> G) (mul : Z -> G -> G) (I : nat -> G).
Definition last_term (c : nat) (M : list bool) : G :=
  let segs := segments c (pad3 M) in mul (encode_segment (last segs [])) (I (length segs - 1)%nat).
Fixpoint pedersen_actual (c : nat) (M : list bool) (extra : G) (ops : list pop) : list G :=
  match ops with
  | [] => []
  | PUpdate bits :: r => pedersen_actual c (M ++ bits) extra r
  | PExtract :: r =>
      add (pedersen_to_point zero add mul I c M) extra ::
      pedersen_actual c (pad3 M) (add extra (last_term c M)) r
  end.
(** The longest message of a history, with the padding of the extractions. *)
Fixpoint final_message (M : list bool) (ops : list pop) : list bool :=
  match ops with
  | [] => M
  | PUpdate bits :: r => final_message (M ++ bits) r
  | PExtract :: r => final_message (pad3 M) r
  end.
End Actual.

(** Scalar multiplication in such a group. *)
Record scalar_laws {G} (zero : G) (add : G -> G -> G) (mul : Z -> G -> G) : Prop := {
  sl_zero : forall g, mul 0 g = zero;
  sl_add : forall a b g, mul (a + b) g = add (mul a g) (mul b g) }.

(** A relation between the first base points that is not trivial modulo their order [r]: e_0 I_0 + e_1 I_1 + ... = 0,
    with every |e_i| < r and some e_i not 0. *)
Fixpoint combination {G} (zero : G) (add : G -> G -> G) (mul : Z -> G -> G) (I : nat -> G) (i : nat) (es : list Z) : G :=
  match es with
  | [] => zero
  | e :: r => add (mul e (I i)) (combination zero add mul I (S i) r)
  end.
Definition nontrivial_relation {G} (zero : G) (add : G -> G -> G) (mul : Z -> G -> G) (I : nat -> G) (r : Z) (es : list Z) : Prop :=
  combination zero add mul I 0 es = zero /\ Forall (fun e => Z.abs e < r) es /\ Exists (fun e => e <> 0) es.
(** The coefficients two messages give: the differences of the encodings of their segments, a missing segment
    counting as 0. *)
Definition coefficients (c : nat) (M M' : list bool) : list Z :=
  let a := map encode_segment (segments c (pad3 M)) in
  let b := map encode_segment (segments c (pad3 M')) in
  map (fun i => nth i a 0 - nth i b 0) (seq 0 (Nat.max (length a) (length b))).
