(** The integers modulo a prime: a ring in which the S-box has an inverse. *)
From Coq Require Import NArith ZArith Znumtheory Arith List Bool Lia Ring_theory Ring Eqdep_dec.
From Verif Require Import SpecPoseidon LPoseidonBij LFermat.
Import ListNotations.
Local Open Scope Z_scope.

Section Z.
Context (p : Z) (Hp : 0 < p).
Lemma zp_eq (a b : zp p) : proj1_sig a = proj1_sig b -> a = b.
Proof. destruct a as [a Ha], b as [b Hb]. cbn [proj1_sig]. intros ->. f_equal. apply UIP_dec, bool_dec. Qed.
Lemma to_zp_val (a : zp p) : to_zp p (proj1_sig a) = a.
Proof. apply zp_eq. destruct a as [a Ha]. cbn [proj1_sig to_zp]. now apply Z.eqb_eq. Qed.
Lemma val_to_zp x : proj1_sig (to_zp p x) = x mod p.
Proof. reflexivity. Qed.
Lemma val_range (a : zp p) : 0 <= proj1_sig a < p.
Proof. destruct a as [a Ha]. cbn [proj1_sig]. apply Z.eqb_eq in Ha. rewrite <- Ha. now apply Z.mod_pos_bound. Qed.
Lemma zp_dec (a b : zp p) : {a = b} + {a <> b}.
Proof. destruct (Z.eq_dec (proj1_sig a) (proj1_sig b)) as [E|E]; [left; now apply zp_eq|right; now intros ->]. Qed.
Lemma to_zp_mod x y : x mod p = y mod p -> to_zp p x = to_zp p y.
Proof. intros E. apply zp_eq. exact E. Qed.
Lemma to_zp_add a b : to_zp p (a + b) = @add (Zp p) (to_zp p a) (to_zp p b).
Proof. apply to_zp_mod. rewrite !val_to_zp. apply Zplus_mod. Qed.
Lemma to_zp_mul a b : to_zp p (a * b) = @mul (Zp p) (to_zp p a) (to_zp p b).
Proof. apply to_zp_mod. rewrite !val_to_zp. apply Zmult_mod. Qed.
Lemma to_zp_sub a b : to_zp p (a - b) = @sub (Zp p) (to_zp p a) (to_zp p b).
Proof. apply to_zp_mod. rewrite !val_to_zp. apply Zminus_mod. Qed.
Lemma to_zp_opp a : to_zp p (- a) = @opp (Zp p) (to_zp p a).
Proof.
  apply to_zp_mod. rewrite !val_to_zp. replace (- a) with (0 - a) by ring. replace (- (a mod p)) with (0 - a mod p) by ring.
  symmetry. apply Zminus_mod_idemp_r.
Qed.
Theorem zp_ring : is_ring (Zp p).
Proof.
  assert (V : forall a : zp p, exists x, a = to_zp p x) by (intros a; exists (proj1_sig a); symmetry; apply to_zp_val).
  assert (Ez : @zero (Zp p) = to_zp p 0) by reflexivity. assert (Eo : @one (Zp p) = to_zp p 1) by reflexivity.
  constructor; intros; repeat match goal with a : car (Zp p) |- _ => let x := fresh "x" in destruct (V a) as (x & ->) end;
    rewrite ?Ez, ?Eo, <- ?to_zp_opp, <- ?to_zp_mul, <- ?to_zp_add, <- ?to_zp_sub, <- ?to_zp_mul, <- ?to_zp_add; f_equal; ring.
Qed.
Lemma val_power (x : zp p) n : proj1_sig (@power (Zp p) x n) = proj1_sig x ^ Z.of_nat n mod p.
Proof.
  induction n as [|n IH]; [reflexivity|]. cbn [power]. change (@mul (Zp p) x ?y) with (to_zp p (proj1_sig x * proj1_sig y)).
  rewrite val_to_zp, IH, Nat2Z.inj_succ, Z.pow_succ_r by lia. now rewrite Zmult_mod_idemp_r.
Qed.
(** x^alpha and x^e are inverse if alpha e = 1 + k (p - 1). *)
Theorem zp_sbox_inverse (alpha : nat) (e k : Z) : prime p -> 0 < e -> 0 <= k -> Z.of_nat alpha * e = 1 + k * (p - 1) ->
  @sbox_inverse (Zp p) alpha (fun x => to_zp p (proj1_sig x ^ e)).
Proof.
  intros Pp He Hk E x. pose proof (prime_ge_2 p Pp) as H2. pose proof (val_range x) as Hx.
  assert (F : proj1_sig x ^ (Z.of_nat alpha * e) mod p = proj1_sig x).
  { rewrite E. destruct (Z.eq_dec (proj1_sig x) 0) as [->|Hn]; [rewrite Z.pow_0_l by nia; apply Z.mod_0_l; lia|].
    rewrite Z.pow_add_r, Z.pow_1_r by nia. rewrite (Z.mul_comm k), Z.pow_mul_r by lia.
    rewrite <- Zmult_mod_idemp_r, <- (pow_mod _ k) by lia. rewrite fermat_unit; auto.
    - rewrite Z.pow_1_l, Z.mod_small with (a := 1), Z.mul_1_r by lia. apply Z.mod_small. exact Hx.
    - intros D. apply Z.divide_pos_le in D; lia. }
  assert (Ha : 0 <= Z.of_nat alpha) by lia.
  split; apply zp_eq.
  - rewrite val_to_zp, val_power, pow_mod, <- Z.pow_mul_r by lia. exact F.
  - rewrite val_power, val_to_zp, pow_mod, <- Z.pow_mul_r by lia. now rewrite Z.mul_comm.
Qed.

(** ** Matrices *)
Lemma entry_of_table t i j : entry (of_table p t) i j = to_zp p (Z.of_N (nth j (nth i t []) 0%N)).
Proof.
  unfold entry, of_table. set (f := fun v => to_zp p (Z.of_N v) : car (Zp p)).
  transitivity (nth j (map f (nth i t [])) zero); [f_equal; exact (map_nth (map f) t [] i)|].
  exact (map_nth f (nth i t []) 0%N j).
Qed.
Definition zsum (l : list Z) : Z := fold_right Z.add 0 l.
Lemma sum_to_zp {A} (f : A -> Z) l : @sum (Zp p) (map (fun k => to_zp p (f k)) l) = to_zp p (zsum (map f l)).
Proof. induction l as [|x l IH]; [reflexivity|]. cbn [map zsum fold_right].
  transitivity (@add (Zp p) (to_zp p (f x)) (to_zp p (zsum (map f l)))); [|symmetry; apply to_zp_add]. rewrite <- IH. reflexivity. Qed.
Definition check_identity (t : nat) (a b : list (list N)) : bool :=
  forallb (fun i => forallb (fun j =>
    zsum (map (fun k => Z.of_N (nth k (nth i a []) 0%N) * Z.of_N (nth j (nth k b []) 0%N)) (seq 0 t)) mod p =? (if (i =? j)%nat then 1 else 0))
    (seq 0 t)) (seq 0 t).
Lemma check_identity_ok t a b : 1 < p -> check_identity t a b = true -> product_is_identity t (of_table p a) (of_table p b).
Proof.
  intros H1 H i j Hi Hj. unfold check_identity in H. rewrite forallb_forall in H. specialize (H i ltac:(apply in_seq; lia)).
  rewrite forallb_forall in H. specialize (H j ltac:(apply in_seq; lia)). apply Z.eqb_eq in H.
  rewrite (map_ext _ (fun k => to_zp p (Z.of_N (nth k (nth i a []) 0%N) * Z.of_N (nth j (nth k b []) 0%N)))).
  2:{ intros k. rewrite !entry_of_table. symmetry. apply to_zp_mul. }
  etransitivity; [apply (sum_to_zp (fun k => Z.of_N (nth k (nth i a []) 0%N) * Z.of_N (nth j (nth k b []) 0%N)))|].
  destruct (i =? j)%nat; apply to_zp_mod; rewrite H; rewrite Z.mod_small; lia.
Qed.
Definition shape_ok (rows cols : nat) (m : list (list N)) : bool := (length m =? rows)%nat && forallb (fun r => (length r =? cols)%nat) m.
Lemma shape_ok_ok rows cols m : shape_ok rows cols m = true ->
  length (of_table p m) = rows /\ Forall (fun r => length r = cols) (of_table p m).
Proof.
  intros H. apply andb_prop in H. destruct H as [H1 H2]. apply Nat.eqb_eq in H1. unfold of_table. rewrite map_length. split; auto.
  apply Forall_map, Forall_forall. intros r Hr. rewrite forallb_forall in H2. apply H2, Nat.eqb_eq in Hr. now rewrite map_length.
Qed.
Lemma table_invertible t m inv : 1 < p -> shape_ok t t inv && check_identity t m inv && check_identity t inv m = true ->
  invertible t (of_table p m).
Proof.
  intros H1 H. apply andb_prop in H. destruct H as [H H3]. apply andb_prop in H. destruct H as [H0 H2]. exists (of_table p inv).
  split; [now apply shape_ok_ok|]. split; now apply check_identity_ok.
Qed.
End Z.
