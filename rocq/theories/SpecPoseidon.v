(** * Specification: Poseidon

    Grassi, Khovratovich, Rechberger, Roy and Schofnegger, "Poseidon: A New Hash Function for Zero-Knowledge
    Proof Systems"; for Mina, o1-labs/proof-systems/poseidon/src/permutation.rs (full_round). *)
From Coq Require Import NArith ZArith Arith List Bool Ring_theory.
From Verif Require Import SpecStream.
Import ListNotations.

(** A commutative ring. *)
Record ring := {
  car :> Type;
  zero : car; one : car;
  add : car -> car -> car; mul : car -> car -> car; sub : car -> car -> car; opp : car -> car }.
Arguments zero {_}. Arguments one {_}. Arguments add {_}. Arguments mul {_}. Arguments sub {_}. Arguments opp {_}.
Definition is_ring (F : ring) : Prop := ring_theory (@zero F) one add mul sub opp eq.

Section Perm.
Context {F : ring}.

(** x^n. *)
Fixpoint power (x : F) (n : nat) : F :=
  match n with
  | O => one
  | S n' => mul x (power x n')
  end.
Definition sum (l : list F) : F := fold_right add zero l.
(** The product of a matrix, a list of rows, and a column. *)
Definition dot (row s : list F) : F := sum (map (fun p => mul (fst p) (snd p)) (combine row s)).
Definition mat (M : list (list F)) (s : list F) : list F := map (fun row => dot row s) M.
Definition vadd (a b : list F) : list F := map (fun p => add (fst p) (snd p)) (combine a b).

(** The S-box on every word in the first and last RF / 2 rounds and on the first word in the RP rounds between. *)
Definition is_full (RF RP r : nat) : bool := (r <? RF / 2) || (RF / 2 + RP <=? r).
Definition sbox (alpha : nat) (full : bool) (s : list F) : list F :=
  match s with
  | [] => []
  | x :: r => power x alpha :: (if full then map (fun y => power y alpha) r else r)
  end.
(** Constants, S-box, matrix. *)
Definition poseidon_round (alpha RF RP : nat) (M rc : list (list F)) (s : list F) (r : nat) : list F :=
  mat M (sbox alpha (is_full RF RP r) (vadd s (nth r rc []))).
Definition poseidon_permutation (alpha RF RP : nat) (M rc : list (list F)) (s : list F) : list F :=
  fold_left (poseidon_round alpha RF RP M rc) (seq 0 (RF + RP)) s.
(** S-box, matrix, constants; all rounds are full. *)
Definition mina_round (alpha : nat) (M rc : list (list F)) (s : list F) (r : nat) : list F :=
  vadd (mat M (sbox alpha true s)) (nth r rc []).
Definition mina_permutation (alpha rounds : nat) (M rc : list (list F)) (s : list F) : list F :=
  fold_left (mina_round alpha M rc) (seq 0 rounds) s.

(** ** The sponge of this library

    The elements are padded with zeros to a positive multiple of [rate]; each group is permuted together with the
    last word of the previous result (0 at the start). *)
Definition padded (rate : nat) (xs : list F) : list F :=
  xs ++ repeat zero (match xs with [] => rate | _ => (rate - length xs mod rate) mod rate end).
Definition absorb_group (perm : list F -> list F) (c : F) (g : list F) : F := last (perm (c :: g)) zero.
Definition chain (perm : list F -> list F) (rate : nat) (c : F) (xs : list F) : F :=
  fold_left (absorb_group perm) (chunks rate (padded rate xs)) c.
Definition sponge (perm : list F -> list F) (rate : nat) (xs : list F) : F := chain perm rate zero xs.

(** The calls a user can make on a sponge object, and the results of the squeezes: each squeeze ends the message
    absorbed since the previous one and starts a new one chained to its result. *)
Inductive call :=
| Absorb (x : F)
| AbsorbVector (xs : list F)
| Squeeze.
Fixpoint squeezed (perm : list F -> list F) (rate : nat) (c : F) (pending : list F) (calls : list call) : list F :=
  match calls with
  | [] => []
  | Absorb x :: r => squeezed perm rate c (pending ++ [x]) r
  | AbsorbVector xs :: r => squeezed perm rate c (pending ++ xs) r
  | Squeeze :: r => let v := chain perm rate c pending in v :: squeezed perm rate v [] r
  end.
(** The inputs on which the permutation is evaluated while [xs] is hashed. *)
Fixpoint inputs_from (perm : list F -> list F) (c : F) (gs : list (list F)) : list (list F) :=
  match gs with
  | [] => []
  | g :: r => (c :: g) :: inputs_from perm (absorb_group perm c g) r
  end.
Definition permutation_inputs (perm : list F -> list F) (rate : nat) (xs : list F) : list (list F) :=
  inputs_from perm zero (chunks rate (padded rate xs)).
(** Two different inputs whose results have the same last word. *)
Definition collision (perm : list F -> list F) (inputs : list (list F)) : Prop :=
  exists a b, In a inputs /\ In b inputs /\ a <> b /\ last (perm a) zero = last (perm b) zero.
(** An input whose result has the last word zero. *)
Definition zero_result (perm : list F -> list F) (inputs : list (list F)) : Prop :=
  exists a, In a inputs /\ last (perm a) zero = zero.
End Perm.

(** ** Integers in field elements: as many as fit, big-endian *)
(** Groups of [k], the last one possibly shorter. *)
Fixpoint groups_fuel {A} (fuel k : nat) (l : list A) : list (list A) :=
  match fuel, l with
  | S f, _ :: _ => firstn k l :: groups_fuel f k (skipn k l)
  | _, _ => []
  end.
Definition groups {A} (k : nat) (l : list A) : list (list A) := groups_fuel (length l) k l.
Definition big_endian (w : nat) (g : list Z) : Z := fold_left (fun v x => (v * 2 ^ Z.of_nat w + x)%Z) g 0%Z.
Definition packed (word_bits w : nat) (words : list Z) : list Z := map (big_endian w) (groups (word_bits / w) words).

(** ** Integers modulo p *)
Definition zp (p : Z) : Type := {x : Z | Z.eqb (x mod p) x = true}.
Lemma zp_mod (p x : Z) : Z.eqb ((x mod p) mod p) (x mod p) = true.
Proof. apply Z.eqb_eq. destruct (Z.eq_dec p 0) as [->|H]; [now rewrite !Zmod_0_r|]. apply Z.mod_mod, H. Qed.
Definition to_zp (p x : Z) : zp p := exist _ (x mod p)%Z (zp_mod p x).
Definition Zp (p : Z) : ring := {|
  car := zp p; zero := to_zp p 0; one := to_zp p 1;
  add := fun a b => to_zp p (proj1_sig a + proj1_sig b); mul := fun a b => to_zp p (proj1_sig a * proj1_sig b);
  sub := fun a b => to_zp p (proj1_sig a - proj1_sig b); opp := fun a => to_zp p (- proj1_sig a) |}.
Definition of_table (p : Z) (t : list (list N)) : list (list (Zp p)) := map (map (fun v => to_zp p (Z.of_N v))) t.

(** The orders of the fields: alt_bn128 (BN254) scalar field, BLS12-381 scalar field, Pallas and Vesta base fields. *)
Definition bn254_r : Z := 21888242871839275222246405745257275088548364400416034343698204186575808495617%Z.
Definition bls12_381_r : Z := 0x73eda753299d7d483339d80809a1d80553bda402fffe5bfeffffffff00000001%Z.
Definition pallas_p : Z := 0x40000000000000000000000000000000224698fc094cf91b992d30ed00000001%Z.
Definition vesta_p : Z := 0x40000000000000000000000000000000224698fc0994a8dd8c46eb2100000001%Z.

(** ** Bijections *)
(** [f] is a bijection of the set [D]. *)
Definition bijection_of {A} (D : A -> Prop) (f : A -> A) : Prop :=
  (forall a, D a -> D (f a)) /\
  forall b, D b -> exists a, D a /\ f a = b /\ forall a', D a' -> f a' = b -> a' = a.
(** Square matrices inverse to each other. *)
Definition entry {F : ring} (M : list (list F)) (i j : nat) : F := nth j (nth i M []) zero.
Definition is_square {F : ring} (t : nat) (M : list (list F)) : Prop := length M = t /\ Forall (fun row => length row = t) M.
Definition product_is_identity {F : ring} (t : nat) (A B : list (list F)) : Prop :=
  forall i j, i < t -> j < t ->
    sum (map (fun k => mul (entry A i k) (entry B k j)) (seq 0 t)) = if i =? j then one else zero.
Definition invertible {F : ring} (t : nat) (M : list (list F)) : Prop :=
  exists N, is_square t N /\ product_is_identity t M N /\ product_is_identity t N M.

(** ** The determinant, by expansion along the first row *)
Fixpoint det {F : ring} (n : nat) (M : list (list F)) : F :=
  match n, M with
  | S n', row :: rest =>
      sum (map (fun j => let m := mul (nth j row zero) (det n' (map (fun r => firstn j r ++ skipn (S j) r) rest)) in
                         if Nat.even j then m else opp m) (seq 0 (S n')))
  | _, _ => one
  end.
(** M_ij = 1 / (x_i - y_j). *)
Definition is_cauchy {F : ring} (xs ys : list F) (M : list (list F)) : Prop :=
  length xs = length M /\ Forall (fun row => length row = length ys) M /\
  forall i j, i < length xs -> j < length ys ->
    mul (sub (nth i xs zero) (nth j ys zero)) (nth j (nth i M []) zero) = one.

(** The number of positions in which two sequences of [t] numbers modulo [p] differ. *)
Definition differing {p : Z} (t : nat) (a b : list (Zp p)) : nat :=
  length (filter (fun i => negb (Z.eqb (proj1_sig (nth i a zero)) (proj1_sig (nth i b zero)))) (seq 0 t)).

(** The partial rounds published with 8 full rounds and S-box x^5, for a state of [t] elements of a field of about 2^254
    elements (Grassi and others, "Poseidon: A New Hash Function for Zero-Knowledge Proof Systems", section 5). *)
Definition published_partial_rounds (security t : nat) : nat :=
  match security with
  | 80 => if t <=? 3 then 33 else 35
  | 128 => if t <=? 3 then 57 else if t <=? 5 then 60 else 63
  | _ => 120
  end.
