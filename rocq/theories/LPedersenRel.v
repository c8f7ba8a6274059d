(** Collisions of the Pedersen hash (C61). *)
From Coq Require Import NArith ZArith Arith List Bool Lia ZifyBool ZifyNat ZifyN.
From Verif Require Import SpecStream LStream MAcc SpecPedersen MPedersen LPedersen LPedersenStmt.
Import ListNotations.
Ltac Zify.zify_post_hook ::= Z.div_mod_to_equations.

(** a - b, the shorter list filled with zeros. *)
Fixpoint diff (a b : list Z) : list Z :=
  match a, b with
  | [], _ => map Z.opp b
  | _, [] => a
  | x :: a', y :: b' => (x - y)%Z :: diff a' b'
  end.
Lemma diff_nth a : forall b, diff a b = map (fun i => (nth i a 0 - nth i b 0)%Z) (seq 0 (Nat.max (length a) (length b))).
Proof.
  induction a as [|x a IH]; intros b.
  - cbn [diff length Nat.max]. induction b as [|y b IHb]; [reflexivity|]. cbn [map length seq nth]. f_equal.
    rewrite IHb, <- seq_shift, map_map. apply map_ext. intros i. now destruct i.
  - destruct b as [|y b]; cbn [diff].
    + cbn [length Nat.max seq map nth]. f_equal; [lia|]. rewrite <- seq_shift, map_map.
      clear. induction a as [|z a IH]; [reflexivity|]. cbn [length seq map nth]. f_equal; [lia|].
      rewrite <- seq_shift, map_map. rewrite IH at 1. apply map_ext. intros i. reflexivity.
    + cbn [length Nat.max seq map nth]. f_equal. rewrite IH, <- seq_shift, map_map. reflexivity.
Qed.
Lemma diff_Forall r a : forall b, Forall (fun e => (Z.abs e <= (r - 1) / 2)%Z) a -> Forall (fun e => (Z.abs e <= (r - 1) / 2)%Z) b ->
  (0 < r)%Z -> Forall (fun e => (Z.abs e < r)%Z) (diff a b).
Proof.
  induction a as [|x a IH]; intros b Fa Fb Hr.
  - cbn [diff]. apply Forall_map. eapply Forall_impl; [|exact Fb]. cbn. intros e H. lia.
  - destruct b as [|y b]; cbn [diff].
    + eapply Forall_impl; [|exact Fa]. cbn. intros e H. lia.
    + inversion Fa; inversion Fb; subst. constructor; [lia|]. now apply IH.
Qed.
Lemma diff_Exists a : forall b, Forall (fun e => e <> 0%Z) a -> Forall (fun e => e <> 0%Z) b -> a <> b ->
  Exists (fun e => e <> 0%Z) (diff a b).
Proof.
  induction a as [|x a IH]; intros b Fa Fb Hn.
  - destruct b as [|y b]; [congruence|]. cbn. inversion Fb; subst. apply Exists_cons_hd. lia.
  - destruct b as [|y b]; cbn [diff].
    + inversion Fa; subst. now apply Exists_cons_hd.
    + inversion Fa; inversion Fb; subst. destruct (Z.eq_dec x y) as [->|].
      * apply Exists_cons_tl. apply IH; auto. congruence.
      * apply Exists_cons_hd. lia.
Qed.

Section R.
Context {G : Type} (zero : G) (add : G -> G -> G) (mul : Z -> G -> G) (I : nat -> G).
Context (HG : group_laws zero add) (HS : scalar_laws zero add mul).
Notation comb := (combination zero add mul I).

Lemma swap4 a b c d : add (add a b) (add c d) = add (add a c) (add b d).
Proof.
  destruct HG as [GA GC GZ]. rewrite <- !GA. f_equal. rewrite !GA. f_equal. apply GC.
Qed.
Lemma comb_diff a : forall b i, add (comb i (diff a b)) (comb i b) = comb i a.
Proof.
  pose proof HG as [GA GC GZ]. pose proof HS as [S0 SA].
  induction a as [|x a IH]; intros b i.
  - cbn [diff]. revert i. induction b as [|y b IHb]; intros i; cbn [map combination]; [apply GZ|].
    rewrite swap4, <- SA. replace (- y + y)%Z with 0%Z by lia. rewrite S0, GZ. apply IHb.
  - destruct b as [|y b]; cbn [diff combination].
    + now rewrite GC, GZ.
    + rewrite swap4, <- SA, IH. now replace (x - y + y)%Z with x by lia.
Qed.
Lemma comb_neg b i : add (comb i (map Z.opp b)) (comb i b) = zero.
Proof. exact (comb_diff [] b i). Qed.
Lemma comb_equal a b : comb 0 a = comb 0 b -> comb 0 (diff a b) = zero.
Proof.
  pose proof HG as [GA GC GZ]. intros E. pose proof (comb_diff a b 0) as D. rewrite E in D.
  pose proof (comb_neg b 0) as N0.
  transitivity (add (comb 0 (diff a b)) (add (comb 0 b) (comb 0 (map Z.opp b)))).
  - rewrite (GC (comb 0 b)), N0, GC. symmetry. apply GZ.
  - rewrite GA, D, GC. exact N0.
Qed.
Lemma sum_comb segs : forall i, sum_segments zero add mul I i segs = comb i (map encode_segment segs).
Proof. induction segs as [|s r IH]; intros i; cbn [sum_segments map combination]; [reflexivity|]. now rewrite IH. Qed.

Lemma relation r c M M' : is_chunks_per_segment r c -> (0 < r)%Z -> 0 < c ->
  pad3 M <> pad3 M' -> pedersen_to_point zero add mul I c M = pedersen_to_point zero add mul I c M' ->
  nontrivial_relation zero add mul I r (coefficients c M M').
Proof.
  intros HC Hr Hc Hn E. unfold pedersen_to_point in E. rewrite !sum_comb in E.
  unfold coefficients. rewrite <- diff_nth.
  destruct (segments_shape c M Hc) as [_ S1]. destruct (segments_shape c M' Hc) as [_ S2].
  assert (EC : forall N, concat (concat (segments c (pad3 N))) = pad3 N).
  { intros N. unfold segments. rewrite (proj2 (groups_shape c _ Hc)). apply (proj2 (groups_shape 3 _ ltac:(lia))). }
  assert (NZ : forall s, 0 < length s <= c /\ Forall chunk_ok s -> encode_segment s <> 0%Z).
  { intros s [L F] Z0. apply (encode_mod_nonzero r c s HC F L). now rewrite Z0, Z.mod_0_l by lia. }
  assert (BD : forall s, 0 < length s <= c /\ Forall chunk_ok s -> (Z.abs (encode_segment s) <= (r - 1) / 2)%Z).
  { intros s [L F]. pose proof (encode_bound s). pose proof (bound_mono (length s) c ltac:(lia)).
    destruct HC as [HB _]. fold (bound c) in HB. lia. }
  split; [|split].
  - now apply comb_equal.
  - apply diff_Forall; auto; apply Forall_map; eapply Forall_impl; try exact BD; assumption.
  - apply diff_Exists.
    1,2: apply Forall_map; eapply Forall_impl; try exact NZ; assumption.
    intros EM. apply Hn. rewrite <- (EC M), <- (EC M'). f_equal. f_equal.
    clear -EM S1 S2. revert EM S1 S2. generalize (segments c (pad3 M)) (segments c (pad3 M')). intros a.
    induction a as [|x a IH]; intros [|y b] EM S1 S2; try discriminate; auto.
    cbn [map] in EM. injection EM as E1 E2. inversion S1 as [|? ? [_ F1] S1']; inversion S2 as [|? ? [_ F2] S2']; subst.
    f_equal; [now apply encode_inj|]. now apply IH.
Qed.
End R.

Lemma pad3_same_length M M' : length M = length M' -> pad3 M = pad3 M' -> M = M'.
Proof.
  rewrite !pad3_need. intros L E. apply (f_equal (firstn (length M))) in E.
  rewrite firstn_app, Nat.sub_diag, firstn_O, app_nil_r, firstn_all in E.
  rewrite firstn_app, L, Nat.sub_diag, firstn_O, app_nil_r, firstn_all in E. exact E.
Qed.

Section S.
Context {G : Type} (zero : G) (add : G -> G -> G) (mul : Z -> G -> G) (base : N -> G) (p : Z) (width c : nat).
Notation I := (fun i => base (N.of_nat i)).
Lemma run_once {B} (pack : G -> B) pieces : group_laws zero add -> (0 < p)%Z ->
  (forall i z, mul (z mod p)%Z (base i) = mul z (base i)) ->
  2 <= c -> (16 ^ (Z.of_nat c - 1) < 2 ^ Z.of_nat width)%Z ->
  (N.of_nat (length (pad3 (concat pieces))) < 2 ^ 64)%N ->
  (N.of_nat (length (pad3 (concat pieces))) <= N.of_nat (3 * c) * 2 ^ 32)%N ->
  pedersen_run zero add mul base p width (N.of_nat c) pack (map PUpdate pieces ++ [PExtract]) =
  Some [pack (pedersen_to_point zero add mul I c (concat pieces))].
Proof. intros. unfold pedersen_run. now rewrite once. Qed.

Lemma run_histories {B} (pack : G -> B) ops : group_laws zero add -> (0 < p)%Z ->
  (forall i z, mul (z mod p)%Z (base i) = mul z (base i)) ->
  2 <= c -> (16 ^ (Z.of_nat c - 1) < 2 ^ Z.of_nat width)%Z ->
  (N.of_nat (length (final_message [] ops)) < 2 ^ 64)%N ->
  (N.of_nat (length (final_message [] ops)) <= N.of_nat (3 * c) * 2 ^ 32)%N ->
  pedersen_run zero add mul base p width (N.of_nat c) pack ops = Some (map pack (pedersen_actual zero add mul I c [] zero ops)).
Proof. intros. unfold pedersen_run. now rewrite histories. Qed.

Lemma collision {B} (pack : G -> B) pieces pieces' d : group_laws zero add -> scalar_laws zero add mul ->
  (forall g g', pack g = pack g' -> g = g') -> (0 < p)%Z ->
  (forall i z, mul (z mod p)%Z (base i) = mul z (base i)) ->
  is_chunks_per_segment p c -> 2 <= c -> (16 ^ (Z.of_nat c - 1) < 2 ^ Z.of_nat width)%Z ->
  (N.of_nat (3 * c) * 2 ^ 32 < 2 ^ 64)%N ->
  (N.of_nat (length (pad3 (concat pieces))) <= N.of_nat (3 * c) * 2 ^ 32)%N ->
  (N.of_nat (length (pad3 (concat pieces'))) <= N.of_nat (3 * c) * 2 ^ 32)%N ->
  pad3 (concat pieces) <> pad3 (concat pieces') ->
  pedersen_run zero add mul base p width (N.of_nat c) pack (map PUpdate pieces ++ [PExtract]) = Some [d] ->
  pedersen_run zero add mul base p width (N.of_nat c) pack (map PUpdate pieces' ++ [PExtract]) = Some [d] ->
  nontrivial_relation zero add mul I p (coefficients c (concat pieces) (concat pieces')).
Proof.
  intros HG HS HP Hp Hm HC Hc HW HB B1 B2 Hn.
  rewrite !run_once by (auto; lia). intros E1 E2. injection E1 as E1. injection E2 as E2. rewrite <- E2 in E1.
  apply (relation zero add mul I HG HS p c (concat pieces) (concat pieces') HC Hp ltac:(lia) Hn). now apply HP.
Qed.
Lemma collision_same_length {B} (pack : G -> B) pieces pieces' d : group_laws zero add -> scalar_laws zero add mul ->
  (forall g g', pack g = pack g' -> g = g') -> (0 < p)%Z ->
  (forall i z, mul (z mod p)%Z (base i) = mul z (base i)) ->
  is_chunks_per_segment p c -> 2 <= c -> (16 ^ (Z.of_nat c - 1) < 2 ^ Z.of_nat width)%Z ->
  (N.of_nat (3 * c) * 2 ^ 32 < 2 ^ 64)%N ->
  (N.of_nat (length (pad3 (concat pieces))) <= N.of_nat (3 * c) * 2 ^ 32)%N ->
  length (concat pieces) = length (concat pieces') -> concat pieces <> concat pieces' ->
  pedersen_run zero add mul base p width (N.of_nat c) pack (map PUpdate pieces ++ [PExtract]) = Some [d] ->
  pedersen_run zero add mul base p width (N.of_nat c) pack (map PUpdate pieces' ++ [PExtract]) = Some [d] ->
  nontrivial_relation zero add mul I p (coefficients c (concat pieces) (concat pieces')).
Proof.
  intros HG HS HP Hp Hm HC Hc HW HB B1 L Hn R1 R2.
  assert (LP : length (pad3 (concat pieces')) = length (pad3 (concat pieces))).
  { rewrite !pad3_need, !app_length, !repeat_length, L. f_equal. unfold need.
    destruct (concat pieces), (concat pieces'); try reflexivity; try discriminate L. now rewrite L. }
  apply (collision pack pieces pieces' d); auto.
  - now rewrite LP.
  - intros E. apply Hn. now apply pad3_same_length.
Qed.
Lemma padding_ignored {B} (pack : G -> B) M : group_laws zero add -> (0 < p)%Z ->
  (forall i z, mul (z mod p)%Z (base i) = mul z (base i)) ->
  2 <= c -> (16 ^ (Z.of_nat c - 1) < 2 ^ Z.of_nat width)%Z ->
  (N.of_nat (length (pad3 M)) < 2 ^ 64)%N ->
  (N.of_nat (length (pad3 M)) <= N.of_nat (3 * c) * 2 ^ 32)%N ->
  pedersen_run zero add mul base p width (N.of_nat c) pack [PUpdate M; PExtract] =
  pedersen_run zero add mul base p width (N.of_nat c) pack [PUpdate (pad3 M); PExtract].
Proof.
  intros HG Hp Hm Hc HW H1 H2.
  pose proof (run_once pack [M] HG Hp Hm Hc HW) as R1. pose proof (run_once pack [pad3 M] HG Hp Hm Hc HW) as R2.
  cbn [concat map app] in R1, R2. rewrite app_nil_r in R1, R2. rewrite R1 by assumption.
  rewrite R2 by now rewrite pad3_idem. unfold pedersen_to_point. now rewrite pad3_idem.
Qed.
End S.

Lemma z139_scalar : scalar_laws (of_Z 0) add139 mul139.
Proof.
  constructor.
  - intros [x Hx]. apply z139_eq. reflexivity.
  - intros a b [x Hx]. apply z139_eq. unfold mul139, add139, of_Z. cbn [proj1_sig].
    rewrite Z.mul_add_distr_r. apply Zplus_mod.
Qed.
