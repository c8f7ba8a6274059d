(** The BLAKE2b mixing is a bijection for a fixed message block. *)
From Coq Require Import NArith Arith List Bool Lia ZifyBool ZifyNat ZifyN ZArith.
From Verif Require Import SpecStream LStream MPack LInj MAcc MConstr MBlake2b LBlake2b.
Import ListNotations.
Ltac Zify.zify_post_hook ::= Z.div_mod_to_equations.
Local Open Scope N_scope.

Lemma rotr_testbit x k i : ok64 x -> 0 < k < 64 -> i < 64 ->
  N.testbit (rotr 64 k x) i = N.testbit x (if i <? 64 - k then i + k else i - (64 - k)).
Proof.
  intros Hx Hk Hi. unfold rotr. rewrite N.lor_spec, N.shiftr_spec by lia.
  rewrite N.mod_pow2_bits_low by lia. destruct (N.ltb_spec i (64 - k)).
  - rewrite N.shiftl_spec_low by lia. apply orb_false_r.
  - rewrite N.shiftl_spec_high by lia.
    replace (N.testbit x (i + k)) with false; [reflexivity|]. symmetry.
    replace (i + k) with (N.of_nat (N.to_nat (i + k))) by lia. apply (testbit_high 64); auto. lia.
Qed.

Lemma rotr_rotr x k : ok64 x -> 0 < k < 64 -> rotr 64 (64 - k) (rotr 64 k x) = x.
Proof.
  intros Hx Hk. apply (testbit_ext 64); auto.
  - apply rotr_ok; [apply rotr_ok; auto|lia].
  - intros j Hj. rewrite rotr_testbit by (try lia; apply rotr_ok; auto).
    destruct (N.ltb_spec (N.of_nat j) (64 - (64 - k))).
    + rewrite rotr_testbit by (auto; lia).
      destruct (N.ltb_spec (N.of_nat j + (64 - k)) (64 - k)); [lia|]. f_equal. lia.
    + rewrite rotr_testbit by (auto; lia).
      destruct (N.ltb_spec (N.of_nat j - (64 - (64 - k))) (64 - k)); [|lia]. f_equal. lia.
Qed.

Lemma rotr_rotr' x k : ok64 x -> 0 < k < 64 -> rotr 64 k (rotr 64 (64 - k) x) = x.
Proof.
  intros Hx Hk. replace k with (64 - (64 - k)) at 1 by lia. apply rotr_rotr; auto. lia.
Qed.

Definition minus64 (x y : N) : N := (x + (2 ^ 64 - y mod 2 ^ 64)) mod 2 ^ 64.

Lemma minus64_ok x y : ok64 (minus64 x y).
Proof. apply mod_ok. Qed.

Lemma plus_minus x y : ok64 x -> plus64 (minus64 x y) y = x.
Proof.
  intros Hx. unfold plus64, minus64, fits in *. change (2 ^ N.of_nat 64) with (2 ^ 64) in Hx.
  pose proof (N.mod_lt y (2 ^ 64) ltac:(discriminate)) as L.
  rewrite N.add_mod_idemp_l by discriminate. rewrite <- N.add_mod_idemp_r by discriminate.
  replace (x + (2 ^ 64 - y mod 2 ^ 64) + y mod 2 ^ 64) with (x + 1 * 2 ^ 64).
  - rewrite N.mod_add by discriminate. apply N.mod_small. exact Hx.
  - generalize dependent (y mod 2 ^ 64). intros z L. revert L. generalize (2 ^ 64). lia.
Qed.

Lemma minus_plus x y : ok64 x -> minus64 (plus64 x y) y = x.
Proof.
  intros Hx. unfold plus64, minus64, fits in *. change (2 ^ N.of_nat 64) with (2 ^ 64) in Hx.
  pose proof (N.mod_lt y (2 ^ 64) ltac:(discriminate)) as L.
  rewrite N.add_mod_idemp_l by discriminate.
  rewrite <- N.add_assoc, (N.add_comm y), N.add_assoc.
  rewrite <- N.add_mod_idemp_r by discriminate.
  replace (x + (2 ^ 64 - y mod 2 ^ 64) + y mod 2 ^ 64) with (x + 1 * 2 ^ 64).
  - rewrite N.mod_add by discriminate. apply N.mod_small. exact Hx.
  - generalize dependent (y mod 2 ^ 64). intros z L. revert L. generalize (2 ^ 64). lia.
Qed.

Lemma lxor_back x y : N.lxor (N.lxor x y) y = x.
Proof. now rewrite N.lxor_assoc, N.lxor_nilpotent, N.lxor_0_r. Qed.

Definition ginv (a b c d x y : N) : N * N * N * N :=
  let b := N.lxor (rotr 64 1 b) c in
  let c := minus64 c d in
  let d := N.lxor (rotr 64 48 d) a in
  let a := minus64 (minus64 a y) b in
  let b := N.lxor (rotr 64 40 b) c in
  let c := minus64 c d in
  let d := N.lxor (rotr 64 32 d) a in
  let a := minus64 (minus64 a x) b in
  (a, b, c, d).

Lemma ginv_ok a b c d x y : ok64 a -> ok64 b -> ok64 c -> ok64 d ->
  let '(a', b', c', d') := ginv a b c d x y in ok64 a' /\ ok64 b' /\ ok64 c' /\ ok64 d'.
Proof.
  intros Ha Hb Hc Hd. unfold ginv. cbv zeta.
  repeat split; repeat first [apply minus64_ok | assumption | apply lxor_ok | (apply rotr_ok; [|lia])].
Qed.

Lemma g_ginv a b c d x y : ok64 a -> ok64 b -> ok64 c -> ok64 d ->
  let '(a', b', c', d') := ginv a b c d x y in g a' b' c' d' x y = (a, b, c, d).
Proof.
  intros Ha Hb Hc Hd. unfold ginv. cbv zeta. unfold g. cbv zeta.
  set (b1 := N.lxor (rotr 64 1 b) c).
  assert (Hb1 : ok64 b1) by (apply lxor_ok; auto; apply rotr_ok; auto; lia).
  set (d1 := N.lxor (rotr 64 48 d) a).
  assert (Hd1 : ok64 d1) by (apply lxor_ok; auto; apply rotr_ok; auto; lia).
  set (c1 := minus64 c d). assert (Hc1 : ok64 c1) by apply minus64_ok.
  set (a1 := minus64 (minus64 a y) b1). assert (Ha1 : ok64 a1) by apply minus64_ok.
  assert (E1 : forall p q z, ok64 p -> plus64 (plus64 (minus64 (minus64 p q) z) z) q = p).
  { intros. rewrite plus_minus by apply minus64_ok. now apply plus_minus. }
  rewrite !E1 by auto. rewrite !lxor_back.
  change (rotr 64 32 (rotr 64 32 d1)) with (rotr 64 32 (rotr 64 (64 - 32) d1)). rewrite rotr_rotr' by (auto; lia).
  rewrite !plus_minus by auto. rewrite !lxor_back.
  change (rotr 64 40 b1) with (rotr 64 (64 - 24) b1). rewrite rotr_rotr' by (auto; lia).
  unfold a1. rewrite !E1 by auto.
  assert (Ed : rotr 64 16 (N.lxor d1 a) = d).
  { unfold d1. rewrite lxor_back. change (rotr 64 48 d) with (rotr 64 (64 - 16) d). apply rotr_rotr'; auto. lia. }
  rewrite !Ed.
  unfold c1. rewrite plus_minus by auto. unfold b1. rewrite lxor_back.
  change (rotr 64 1 b) with (rotr 64 (64 - 63) b). rewrite rotr_rotr' by (auto; lia).
  reflexivity.
Qed.

Lemma ginv_g a b c d x y : ok64 a -> ok64 b -> ok64 c -> ok64 d ->
  let '(a', b', c', d') := g a b c d x y in ginv a' b' c' d' x y = (a, b, c, d).
Proof.
  intros Ha Hb Hc Hd. unfold g. cbv zeta. unfold ginv. cbv zeta.
  set (a1 := plus64 (plus64 a b) x). assert (Ha1 : ok64 a1) by apply plus64_ok.
  set (d1 := rotr 64 32 (N.lxor d a1)).
  assert (Hd1 : ok64 d1) by (apply rotr_ok; [apply lxor_ok; auto|lia]).
  set (c1 := plus64 c d1). assert (Hc1 : ok64 c1) by apply plus64_ok.
  set (b1 := rotr 64 24 (N.lxor b c1)).
  assert (Hb1 : ok64 b1) by (apply rotr_ok; [apply lxor_ok; auto|lia]).
  set (a2 := plus64 (plus64 a1 b1) y). assert (Ha2 : ok64 a2) by apply plus64_ok.
  set (d2 := rotr 64 16 (N.lxor d1 a2)).
  assert (Hd2 : ok64 d2) by (apply rotr_ok; [apply lxor_ok; auto|lia]).
  set (c2 := plus64 c1 d2). assert (Hc2 : ok64 c2) by apply plus64_ok.
  assert (E1 : forall p q z, ok64 p -> minus64 (minus64 (plus64 (plus64 p z) q) q) z = p).
  { intros. rewrite minus_plus by apply plus64_ok. now apply minus_plus. }
  change (rotr 64 1 (rotr 64 63 (N.lxor b1 c2))) with (rotr 64 (64 - 63) (rotr 64 63 (N.lxor b1 c2))).
  rewrite !rotr_rotr by (try lia; apply lxor_ok; auto). rewrite !lxor_back.
  assert (Ed2 : N.lxor (rotr 64 48 d2) a2 = d1).
  { unfold d2. change (rotr 64 48 (rotr 64 16 (N.lxor d1 a2))) with (rotr 64 (64 - 16) (rotr 64 16 (N.lxor d1 a2))).
    rewrite rotr_rotr by (try lia; apply lxor_ok; auto). apply lxor_back. }
  rewrite !Ed2.
  assert (Ec2 : minus64 c2 d2 = c1) by (apply minus_plus; auto). rewrite !Ec2.
  assert (Ea2 : minus64 (minus64 a2 y) b1 = a1) by (apply E1; auto). rewrite !Ea2.
  assert (Eb1 : N.lxor (rotr 64 40 b1) c1 = b).
  { unfold b1. change (rotr 64 40 (rotr 64 24 (N.lxor b c1))) with (rotr 64 (64 - 24) (rotr 64 24 (N.lxor b c1))).
    rewrite rotr_rotr by (try lia; apply lxor_ok; auto). apply lxor_back. }
  rewrite !Eb1.
  assert (Ec1 : minus64 c1 d1 = c) by (apply minus_plus; auto). rewrite !Ec1.
  assert (Ed1 : N.lxor (rotr 64 32 d1) a1 = d).
  { unfold d1. change (rotr 64 32 (rotr 64 32 (N.lxor d a1))) with (rotr 64 (64 - 32) (rotr 64 32 (N.lxor d a1))).
    rewrite rotr_rotr by (try lia; apply lxor_ok; auto). apply lxor_back. }
  rewrite Ed1. unfold a1. rewrite E1 by auto. reflexivity.
Qed.

Definition unround (M : list N) (v : list N) (ix : list nat) : list N :=
  let m k := nth (nth k ix 0%nat) M 0 in
  match v with
  | [v0; v1; v2; v3; v4; v5; v6; v7; v8; v9; v10; v11; v12; v13; v14; v15] =>
    let '(v3, v4, v9, v14) := ginv v3 v4 v9 v14 (m 14%nat) (m 15%nat) in
    let '(v2, v7, v8, v13) := ginv v2 v7 v8 v13 (m 12%nat) (m 13%nat) in
    let '(v1, v6, v11, v12) := ginv v1 v6 v11 v12 (m 10%nat) (m 11%nat) in
    let '(v0, v5, v10, v15) := ginv v0 v5 v10 v15 (m 8%nat) (m 9%nat) in
    let '(v3, v7, v11, v15) := ginv v3 v7 v11 v15 (m 6%nat) (m 7%nat) in
    let '(v2, v6, v10, v14) := ginv v2 v6 v10 v14 (m 4%nat) (m 5%nat) in
    let '(v1, v5, v9, v13) := ginv v1 v5 v9 v13 (m 2%nat) (m 3%nat) in
    let '(v0, v4, v8, v12) := ginv v0 v4 v8 v12 (m 0%nat) (m 1%nat) in
    [v0; v1; v2; v3; v4; v5; v6; v7; v8; v9; v10; v11; v12; v13; v14; v15]
  | _ => v
  end.

Ltac fwd :=
  match goal with
  | |- context [g ?a ?b ?c ?d ?x ?y] =>
      let Q := fresh "Q" in let E := fresh "E" in
      pose proof (g_ok a b c d x y ltac:(auto) ltac:(auto)) as Q;
      pose proof (ginv_g a b c d x y ltac:(auto) ltac:(auto) ltac:(auto) ltac:(auto)) as E;
      destruct (g a b c d x y) as [[[? ?] ?] ?]; destruct Q as (? & ? & ? & ?)
  end.
Ltac bwd :=
  match goal with
  | |- context [ginv ?a ?b ?c ?d ?x ?y] =>
      let Q := fresh "Q" in let E := fresh "E" in
      pose proof (ginv_ok a b c d x y ltac:(auto) ltac:(auto) ltac:(auto) ltac:(auto)) as Q;
      pose proof (g_ginv a b c d x y ltac:(auto) ltac:(auto) ltac:(auto) ltac:(auto)) as E;
      destruct (ginv a b c d x y) as [[[? ?] ?] ?]; destruct Q as (? & ? & ? & ?)
  end.
Ltac split16 HF L v :=
  destruct (list16 v L) as (v0 & v1 & v2 & v3 & v4 & v5 & v6 & v7 & v8 & v9 & v10 & v11 & v12 & v13 & v14 & v15 & ->);
  repeat match goal with H : Forall _ (_ :: _) |- _ => inversion H; subst; clear H end.

Lemma unround_round M v ix : st16 v -> unround M (blake2b_round M v ix) ix = v /\ st16 (blake2b_round M v ix).
Proof.
  intros [L HF]. split16 HF L v. unfold blake2b_round. cbv zeta. do 8 fwd. split.
  - unfold unround. cbv zeta. rewrite E6, E5, E4, E3, E2, E1, E0, E. reflexivity.
  - split; [reflexivity|]. repeat (constructor; [assumption|]). constructor.
Qed.

Lemma round_unround M v ix : st16 v -> blake2b_round M (unround M v ix) ix = v /\ st16 (unround M v ix).
Proof.
  intros [L HF]. split16 HF L v. unfold unround. cbv zeta. do 8 bwd. split.
  - unfold blake2b_round. cbv zeta. rewrite E6, E5, E4, E3, E2, E1, E0, E. reflexivity.
  - split; [reflexivity|]. repeat (constructor; [assumption|]). constructor.
Qed.

Lemma fold_inverse {A B} (P : A -> Prop) (f h : A -> B -> A)
  (K : forall v i, P v -> h (f v i) i = v /\ P (f v i)) l : forall v, P v ->
  fold_left h (rev l) (fold_left f l v) = v /\ P (fold_left f l v).
Proof.
  induction l as [|i l IH]; intros v Hv; cbn [fold_left rev]; [auto|].
  destruct (K v i Hv) as [E1 H1]. destruct (IH _ H1) as [E2 H2].
  rewrite fold_left_app, E2. cbn [fold_left]. auto.
Qed.

Definition unmix (M v : list N) : list N := fold_left (unround M) (rev blake2b_rounds) v.

Lemma unmix_mix M v : st16 v -> unmix M (blake2b_mix M v) = v.
Proof. intros H. exact (proj1 (fold_inverse st16 (blake2b_round M) (unround M) (unround_round M) blake2b_rounds v H)). Qed.

Lemma mix_unmix M v : st16 v -> blake2b_mix M (unmix M v) = v /\ st16 (unmix M v).
Proof.
  intros H.
  destruct (fold_inverse st16 (unround M) (blake2b_round M) (round_unround M) (rev blake2b_rounds) v H) as [E K].
  rewrite rev_involutive in E. split; [exact E|exact K].
Qed.

Lemma mix_injective M v1 v2 : st16 v1 -> st16 v2 -> blake2b_mix M v1 = blake2b_mix M v2 -> v1 = v2.
Proof. intros H1 H2 E. rewrite <- (unmix_mix M v1), <- (unmix_mix M v2) by auto. now rewrite E. Qed.

Lemma mix_surjective M v : st16 v -> exists u, st16 u /\ blake2b_mix M u = v.
Proof. intros H. destruct (mix_unmix M v H) as [E K]. exists (unmix M v). auto. Qed.

Lemma mix_ok M v : st16 v -> st16 (blake2b_mix M v).
Proof. intros H. exact (proj2 (fold_inverse st16 (blake2b_round M) (unround M) (unround_round M) blake2b_rounds v H)). Qed.
