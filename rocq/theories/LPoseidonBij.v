(** Poseidon's permutation is a bijection: proofs. *)
From Coq Require Import NArith Arith List Bool Lia ZifyBool ZifyNat ZifyN ZArith Ring_theory Ring.
From Verif Require Import SpecStream LStream SpecPoseidon MPoseidon LPoseidon.
Import ListNotations.
Ltac Zify.zify_post_hook ::= Z.div_mod_to_equations.

Lemma bijection_comp {A} (D : A -> Prop) f g : bijection_of D f -> bijection_of D g -> bijection_of D (fun x => g (f x)).
Proof.
  intros [F1 F2] [G1 G2]. split; [auto|]. intros c Hc. destruct (G2 c Hc) as (b & Hb & Eb & Ub). destruct (F2 b Hb) as (a & Ha & Ea & Ua).
  exists a. split; auto. split; [now rewrite Ea|]. intros a' Ha' E. apply Ua; auto.
Qed.
Lemma bijection_id {A} (D : A -> Prop) : bijection_of D (fun x => x).
Proof. split; auto. intros b Hb. exists b. auto. Qed.
Lemma bijection_ext {A} (D : A -> Prop) f g : (forall x, D x -> f x = g x) -> bijection_of D f -> bijection_of D g.
Proof.
  intros E [F1 F2]. split.
  - intros a Ha. rewrite <- E; auto.
  - intros b Hb. destruct (F2 b Hb) as (a & Ha & Ea & U). exists a. rewrite <- E by auto. split; auto. split; auto.
    intros a' Ha' E'. apply U; auto. now rewrite E.
Qed.
Lemma bijection_inv {A} (D : A -> Prop) f h : (forall a, D a -> D (f a)) -> (forall a, D a -> D (h a)) ->
  (forall a, D a -> h (f a) = a) -> (forall a, D a -> f (h a) = a) -> bijection_of D f.
Proof.
  intros F H HF FH. split; auto. intros b Hb. exists (h b). split; auto. split; auto. intros a' Ha' <-. symmetry. auto.
Qed.
Lemma bijection_fold {A} (D : A -> Prop) (f : A -> nat -> A) l : (forall r, In r l -> bijection_of D (fun x => f x r)) ->
  bijection_of D (fun x => fold_left f l x).
Proof.
  induction l as [|r l IH]; intros H; [apply bijection_id|]. cbn [fold_left].
  apply (bijection_comp D (fun x => f x r) (fun x => fold_left f l x)); [apply H; now left|]. apply IH. intros. apply H. now right.
Qed.

Section B.
Context {F : ring} (R : is_ring F).
Lemma ring_F : ring_theory (@zero F) one add mul sub opp eq. Proof. exact R. Qed.
Add Ring Fring : ring_F.
Lemma sum_add (f g : nat -> F) l : sum (map (fun i => add (f i) (g i)) l) = add (sum (map f l)) (sum (map g l)).
Proof. induction l as [|i l IH]; cbn [map sum fold_right]; [ring|]. unfold sum in IH. rewrite IH. ring. Qed.
Lemma sum_scale c (f : nat -> F) l : sum (map (fun i => mul c (f i)) l) = mul c (sum (map f l)).
Proof. induction l as [|i l IH]; cbn [map sum fold_right]; [ring|]. unfold sum in IH. rewrite IH. ring. Qed.
Lemma sum_zero l : sum (map (fun _ : nat => @zero F) l) = zero.
Proof. induction l as [|i l IH]; cbn [map sum fold_right]; [reflexivity|]. unfold sum in IH. rewrite IH. ring. Qed.
Lemma sum_swap (f : nat -> nat -> F) l m :
  sum (map (fun i => sum (map (fun j => f i j) m)) l) = sum (map (fun j => sum (map (fun i => f i j) l)) m).
Proof.
  induction l as [|i l IH]; cbn [map].
  - symmetry. apply sum_zero.
  - change (sum (?x :: ?r)) with (add x (sum r)). rewrite IH, <- sum_add. reflexivity.
Qed.
Lemma sum_delta (f : nat -> F) i n : i < n -> sum (map (fun j => mul (if i =? j then one else zero) (f j)) (seq 0 n)) = f i.
Proof.
  intros Hi. assert (G : forall m a, sum (map (fun j => mul (if i =? j then one else zero) (f j)) (seq a m)) =
     if (a <=? i) && (i <? a + m) then f i else zero).
  { induction m as [|m IH]; intros a; cbn [seq map].
    - replace ((a <=? i) && (i <? a + 0)) with false; [reflexivity|]. symmetry. apply andb_false_iff. lia.
    - change (sum (?x :: ?r)) with (add x (sum r)). rewrite IH. destruct (Nat.eqb_spec i a) as [->|Hn].
      + replace ((S a <=? a) && _) with false by (symmetry; apply andb_false_iff; left; apply Nat.leb_gt; lia).
        replace ((a <=? a) && _) with true by (symmetry; apply andb_true_iff; split; [apply Nat.leb_le|apply Nat.ltb_lt]; lia). ring.
      + replace ((S a <=? i) && (i <? S a + m)) with ((a <=? i) && (i <? a + S m)) by (apply eq_true_iff_eq; rewrite !andb_true_iff; lia).
        ring. }
  rewrite G. now replace ((0 <=? i) && (i <? 0 + n)) with true by (symmetry; apply andb_true_iff; split; [apply Nat.leb_le|apply Nat.ltb_lt]; lia).
Qed.
Context (t : nat).
Definition state_ok (s : list F) : Prop := length s = t.
Lemma mat_nth M s i : is_square t M -> state_ok s -> i < t ->
  nth i (mat M s) zero = sum (map (fun k => mul (entry M i k) (nth k s zero)) (seq 0 t)).
Proof.
  intros [LM FM] Ls Hi. unfold mat. rewrite (nth_indep _ zero (dot [] s)) by (rewrite map_length; lia). rewrite (map_nth (fun row => dot row s)).
  rewrite Forall_forall in FM. rewrite dot_index by (rewrite Ls; apply FM, nth_In; lia). now rewrite Ls.
Qed.
Lemma mat_inverse A B s : is_square t A -> is_square t B -> product_is_identity t A B -> state_ok s -> mat A (mat B s) = s.
Proof.
  intros SA SB I Ls. assert (LB : state_ok (mat B s)) by (unfold state_ok; rewrite mat_length; apply SB).
  apply nth_ext with (d := zero) (d' := zero); [rewrite mat_length; rewrite Ls; apply SA|].
  intros i Hi. rewrite mat_length in Hi. destruct SA as [LA FA] eqn:ESA. rewrite LA in Hi. clear ESA.
  rewrite mat_nth by (auto; now split).
  rewrite (sum_ext _ (fun k => sum (map (fun j => mul (mul (entry A i k) (entry B k j)) (nth j s zero)) (seq 0 t)))).
  2: { intros k Hk. apply in_seq in Hk. rewrite mat_nth by (auto; lia). rewrite <- sum_scale. apply sum_ext. intros j _. ring. }
  rewrite sum_swap. rewrite (sum_ext _ (fun j => mul (if i =? j then one else zero) (nth j s zero))).
  - now apply (sum_delta (fun j => nth j s zero)).
  - intros j Hj. apply in_seq in Hj. rewrite <- (I i j) by lia.
    rewrite (sum_ext _ (fun k => mul (nth j s zero) (mul (entry A i k) (entry B k j)))) by (intros; ring). rewrite sum_scale. ring.
Qed.
Lemma mat_bijection M : is_square t M -> invertible t M -> bijection_of state_ok (mat M).
Proof.
  intros SM (N & SN & I1 & I2). apply (bijection_inv _ _ (mat N)).
  - intros a _. unfold state_ok. rewrite mat_length. apply SM.
  - intros a _. unfold state_ok. rewrite mat_length. apply SN.
  - intros a Ha. now apply mat_inverse.
  - intros a Ha. now apply mat_inverse.
Qed.
Lemma vadd_bijection c : state_ok c -> bijection_of state_ok (fun s => vadd s c).
Proof.
  intros Lc. unfold state_ok in *. apply (bijection_inv _ _ (fun s => vadd s (map opp c))).
  - intros a Ha. rewrite vadd_length; congruence.
  - intros a Ha. rewrite vadd_length; auto. rewrite map_length. congruence.
  - intros a Ha. assert (L : length a = length c) by congruence. clear - R L. revert c L. induction a as [|x a IH]; intros [|y c] L; cbn in L; try discriminate; [reflexivity|].
    cbn [map vadd combine fst snd]. unfold vadd in IH. rewrite (IH c) by lia. f_equal. ring.
  - intros a Ha. assert (L : length a = length c) by congruence. clear - R L. revert c L. induction a as [|x a IH]; intros [|y c] L; cbn in L; try discriminate; [reflexivity|].
    cbn [map vadd combine fst snd]. unfold vadd in IH. rewrite (IH c) by lia. f_equal. ring.
Qed.
Definition sbox_inverse (alpha : nat) (g : F -> F) : Prop := forall x, g (power x alpha) = x /\ power (g x) alpha = x.
Lemma sbox_bijection alpha g full : sbox_inverse alpha g -> bijection_of state_ok (sbox alpha full).
Proof.
  intros G. apply (bijection_inv _ _ (fun s => match s with [] => [] | x :: r => g x :: (if full then map g r else r) end)).
  - intros a Ha. unfold state_ok. now rewrite sbox_length.
  - intros a Ha. unfold state_ok in *. destruct a as [|x a]; auto. cbn [length] in *. destruct full; now rewrite ?map_length.
  - intros [|x a] _; [reflexivity|]. cbn [sbox]. rewrite (proj1 (G x)). f_equal. destruct full; [|reflexivity]. rewrite map_map.
    rewrite <- map_id. apply map_ext. intros y. apply G.
  - intros [|x a] _; [reflexivity|]. cbn [sbox]. rewrite (proj2 (G x)). f_equal. destruct full; [|reflexivity]. rewrite map_map.
    rewrite <- map_id. apply map_ext. intros y. apply G.
Qed.
Theorem permutation_bijection alpha g RF RP M rc : sbox_inverse alpha g -> is_square t M -> invertible t M ->
  length rc = RF + RP -> Forall state_ok rc -> bijection_of state_ok (poseidon_permutation alpha RF RP M rc).
Proof.
  intros G SM IM Lr Fr. apply bijection_fold. intros r Hr. apply in_seq in Hr. unfold poseidon_round.
  apply (bijection_comp _ (fun s => sbox alpha (is_full RF RP r) (vadd s (nth r rc []))) (mat M)); [|now apply mat_bijection].
  apply (bijection_comp _ (fun s => vadd s (nth r rc [])) (sbox alpha (is_full RF RP r))); [|now apply (sbox_bijection alpha g)].
  apply vadd_bijection. rewrite Forall_forall in Fr. apply Fr, nth_In. lia.
Qed.
Theorem mina_bijection alpha g rounds M rc : sbox_inverse alpha g -> is_square t M -> invertible t M ->
  length rc = rounds -> Forall state_ok rc -> bijection_of state_ok (mina_permutation alpha rounds M rc).
Proof.
  intros G SM IM Lr Fr. apply bijection_fold. intros r Hr. apply in_seq in Hr. unfold mina_round.
  apply (bijection_comp _ (fun s => mat M (sbox alpha true s)) (fun s => vadd s (nth r rc []))).
  - apply (bijection_comp _ (sbox alpha true) (mat M)); [now apply (sbox_bijection alpha g)|now apply mat_bijection].
  - apply vadd_bijection. rewrite Forall_forall in Fr. apply Fr, nth_In. lia.
Qed.
End B.
