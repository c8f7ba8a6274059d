(** The published constants, checked by computation with 18 bits of the LFSR at a time. *)
From Coq Require Import NArith Arith List Bool Lia ZifyBool ZifyNat ZifyN ZArith.
From Verif Require Import SpecStream LStream SpecGrain MGrain LGrain.
Import ListNotations.
Ltac Zify.zify_post_hook ::= Z.div_mod_to_equations.

Fixpoint zx (a b : list bool) : list bool :=
  match a, b with
  | x :: a', y :: b' => xorb x y :: zx a' b'
  | _, _ => []
  end.
Definition block (s : list bool) : list bool :=
  zx (zx (zx (zx (zx (skipn 62 s) (skipn 51 s)) (skipn 38 s)) (skipn 23 s)) (skipn 13 s)) s.
Fixpoint blocks (k : nat) (s : list bool) : list bool :=
  match k with
  | O => []
  | S k' => let b := block s in b ++ blocks k' (skipn 18 s ++ b)
  end.
Lemma block_raw s : length s = 80 -> block s = raw 18 s /\ skipn 18 s ++ block s = Nat.iter 18 shift s.
Proof.
  intros L.
  do 80 (destruct s as [|? s]; [discriminate L|]; injection L as L).
  apply length_zero_iff_nil in L. subst s. split; reflexivity.
Qed.
Lemma blocks_raw k : forall s, length s = 80 -> blocks k s = raw (k * 18) s.
Proof.
  induction k as [|k IH]; intros s L; [reflexivity|]. cbn [blocks]. change (S k * 18) with (18 + k * 18).
  destruct (block_raw s L) as [B1 B2]. rewrite raw_app, IH, B2, <- B1; [reflexivity|]. rewrite B2. now apply iter_length.
Qed.

(** The first [k] integers of [n] bits. *)
Lemma chunk_prefix {A} n k : forall m (l : list A), k <= m -> firstn k (chunk n m l) = chunk n k l.
Proof.
  induction k as [|k IH]; intros m l H; [reflexivity|]. destruct m as [|m]; [lia|]. cbn [chunk firstn]. rewrite IH by lia. reflexivity.
Qed.
Fixpoint at_least {A} (n : nat) (l : list A) : bool :=
  match n, l with
  | O, _ => true
  | S n', _ :: l' => at_least n' l'
  | S _, [] => false
  end.
Lemma at_least_ok {A} n : forall l : list A, at_least n l = true -> n <= length l.
Proof. induction n as [|n IH]; intros [|x l] H; cbn in *; try lia; try discriminate. apply IH in H. lia. Qed.
Fixpoint list_eqb (a b : list N) : bool :=
  match a, b with
  | [], [] => true
  | x :: a', y :: b' => N.eqb x y && list_eqb a' b'
  | _, _ => false
  end.
Lemma list_eqb_ok a : forall b, list_eqb a b = true -> a = b.
Proof.
  induction a as [|x a IH]; intros [|y b] H; cbn in H; try discriminate; auto. apply andb_prop in H. destruct H as [H1 H2].
  apply N.eqb_eq in H1. apply IH in H2. now subst.
Qed.
Fixpoint nodupb (l : list N) : bool :=
  match l with
  | [] => true
  | x :: r => negb (existsb (N.eqb x) r) && nodupb r
  end.
Lemma nodupb_ok l : nodupb l = true -> NoDup l.
Proof.
  induction l as [|x l IH]; intros H; [constructor|]. cbn in H. apply andb_prop in H. destruct H as [H1 H2]. constructor; auto.
  intros Hin. apply negb_true_iff in H1. assert (existsb (N.eqb x) l = true); [|congruence]. apply existsb_exists. exists x. split; auto. apply N.eqb_refl.
Qed.
Definition check (p : N) (n t RF RP : nat) (rc mds : list (list N)) (k u : nat) : bool :=
  let s := Nat.iter 160 shift (init 1 0 (N.of_nat n) (N.of_nat t) (N.of_nat RF) (N.of_nat RP)) in
  let o := shrink (blocks k s) in
  let vs := map num (chunk n (u + t + t) o) in
  let xs := firstn t (skipn u vs) in
  let ys := firstn t (skipn (u + t) vs) in
  at_least (n * (u + t + t)) o && (0 <? n) && (0 <? u) &&
  list_eqb (below p (firstn u vs)) (concat rc) && (nth (u - 1) vs 0 <? p)%N &&
  nodupb (map (fun v => v mod p)%N (xs ++ ys)) &&
  forallb (fun i => forallb (fun j => N.eqb (((nth i xs 0 + nth j ys 0) * nth j (nth i mds []) 0) mod p)%N 1) (seq 0 t)) (seq 0 t) &&
  (length rc =? RF + RP) && forallb (fun row => length row =? t) rc &&
  (length mds =? t) && forallb (fun row => (length row =? t) && forallb (fun v => v <? p)%N row) mds.
Theorem check_ok p n t RF RP rc mds k u : check p n t RF RP rc mds k u = true -> published p n t RF RP rc mds.
Proof.
  unfold check. set (s0 := init 1 0 _ _ _ _). set (s := Nat.iter 160 shift s0). set (o := shrink (blocks k s)).
  set (vs := map num (chunk n (u + t + t) o)). cbv zeta. intros H.
  repeat (apply andb_prop in H; destruct H as [H ?]).
  rename H into Hlen, H9 into Hn, H8 into Hu, H7 into Hrc, H6 into Hlast, H5 into Hnd, H4 into Hm, H3 into Hs1, H2 into Hs2, H1 into Hm1, H0 into Hm2.
  apply Nat.ltb_lt in Hn, Hu. apply at_least_ok in Hlen. apply list_eqb_ok in Hrc. apply N.ltb_lt in Hlast.
  apply nodupb_ok in Hnd. apply Nat.eqb_eq in Hs1, Hm1. rewrite forallb_forall in Hm, Hs2, Hm2.
  assert (Lv : length vs = u + t + t) by (unfold vs; now rewrite map_length, chunk_length).
  constructor.
  - split; auto. apply Forall_forall. intros row Hr. apply Nat.eqb_eq. now apply Hs2.
  - split; auto. apply Forall_forall. intros row Hr. apply Hm2, andb_prop in Hr. destruct Hr as [R1 R2]. split; [now apply Nat.eqb_eq|].
    rewrite forallb_forall in R2. apply Forall_forall. intros v Hv. apply N.ltb_lt. now apply R2.
  - exists (k * 18), (firstn (u - 1) vs), (nth (u - 1) vs 0%N), (firstn t (skipn u vs)), (firstn t (skipn (u + t) vs)).
    assert (E : exists rest, integers s0 n (k * 18) = vs ++ rest).
    { exists (skipn (u + t + t) (integers s0 n (k * 18))). rewrite <- (firstn_skipn (u + t + t)) at 1. f_equal.
      unfold integers. rewrite outputs_raw. fold s. rewrite <- blocks_raw by apply iter_length, init_length. fold o. unfold chunks.
      rewrite firstn_map, chunk_prefix; [reflexivity|]. apply Nat.div_le_lower_bound; lia. }
    destruct E as (rest & E). exists rest.
    assert (E1 : firstn u vs = firstn (u - 1) vs ++ [nth (u - 1) vs 0%N]).
    { clear - Lv Hu. replace u with (S (u - 1)) at 1 by lia. assert (u - 1 < length vs) by lia. revert H. generalize (u - 1) vs.
      intros m. clear. induction m as [|m IH]; intros [|x l] H; cbn [length] in H; try lia; [reflexivity|]. cbn [firstn nth app]. f_equal. apply IH. lia. }
    repeat split; auto.
    + fold s0. rewrite E. rewrite !app_assoc, <- E1. f_equal. rewrite <- (firstn_skipn u vs) at 1. rewrite <- !app_assoc. f_equal.
      rewrite <- (firstn_skipn t (skipn u vs)) at 1. f_equal.
      assert (K : forall a b (l : list N), skipn a (skipn b l) = skipn (b + a) l).
      { clear. intros a b. induction b as [|b IH]; intros l; [reflexivity|]. destruct l; cbn; [now destruct a|auto]. }
      rewrite K. symmetry. apply firstn_all2. rewrite skipn_length. lia.
    + now rewrite <- E1.
    + rewrite firstn_length, skipn_length. lia.
    + rewrite firstn_length, skipn_length. lia.
    + intros i j Hi Hj. apply N.eqb_eq. specialize (Hm i). rewrite forallb_forall in Hm. apply Hm; apply in_seq; lia.
Qed.
