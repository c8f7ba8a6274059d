(** Poseidon's permutation: proofs. *)
From Coq Require Import NArith Arith List Bool Lia ZifyBool ZifyNat ZifyN ZArith Ring_theory.
From Verif Require Import SpecStream LStream SpecPoseidon MPoseidon.
Import ListNotations.
Ltac Zify.zify_post_hook ::= Z.div_mod_to_equations.

(** ** Loops *)
Lemma for_loop_app {A} n m : forall first (body : nat -> A -> option A) a,
  for_loop (n + m) first body a = bind (for_loop n first body a) (for_loop m (first + n) body).
Proof.
  induction n as [|n IH]; intros first body a; cbn [for_loop Nat.add bind]; [now rewrite Nat.add_0_r|].
  destruct (body first a) as [b|]; cbn [bind]; [|reflexivity]. rewrite IH. now rewrite Nat.add_succ_r.
Qed.
Lemma for_loop_fold {A} (ok : A -> Prop) (f : A -> nat -> A) (body : nat -> A -> option A) n : forall first a,
  (forall i a, first <= i < first + n -> ok a -> body i a = Some (f a i) /\ ok (f a i)) -> ok a ->
  for_loop n first body a = Some (fold_left f (seq first n) a) /\ ok (fold_left f (seq first n) a).
Proof.
  induction n as [|n IH]; intros first a H Ha; cbn [for_loop seq fold_left]; [auto|].
  destruct (H first a) as [-> H2]; [lia|auto|]. cbn [bind]. apply IH; auto. intros i b Hi. apply H. lia.
Qed.
Definition mapi {A} (first : nat) (f : nat -> A -> A) (l : list A) : list A :=
  map (fun p => f (fst p) (snd p)) (combine (seq first (length l)) l).
Lemma mapi_cons {A} first (f : nat -> A -> A) x l : mapi first f (x :: l) = f first x :: mapi (S first) f l.
Proof. reflexivity. Qed.
Lemma mapi_length {A} first (f : nat -> A -> A) l : length (mapi first f l) = length l.
Proof. unfold mapi. rewrite map_length, combine_length, seq_length. lia. Qed.
Lemma set_at_ok {A} (pre : list A) x y suf : set_at (pre ++ x :: suf) (length pre) y = Some (pre ++ y :: suf).
Proof.
  unfold set_at. rewrite app_length. cbn [length]. replace (_ <? _) with true by (symmetry; apply Nat.ltb_lt; lia).
  rewrite firstn_app, Nat.sub_diag, firstn_all. cbn [firstn]. rewrite app_nil_r.
  rewrite skipn_app. rewrite skipn_all2 by lia. replace (S (length pre) - length pre) with 1 by lia. reflexivity.
Qed.
Lemma for_loop_mapi {A} (f : nat -> A -> A) (body : nat -> list A -> option (list A)) : forall suf pre,
  (forall i l, length pre <= i < length pre + length suf -> length l = length pre + length suf ->
     body i l = bind (nth_error l i) (fun a => set_at l i (f i a))) ->
  for_loop (length suf) (length pre) body (pre ++ suf) = Some (pre ++ mapi (length pre) f suf).
Proof.
  induction suf as [|x suf IH]; intros pre H; [reflexivity|]. cbn [length for_loop].
  rewrite H by (rewrite ?app_length; cbn [length]; lia).
  rewrite nth_error_app2, Nat.sub_diag by lia. cbn [nth_error bind]. rewrite set_at_ok. cbn [bind].
  specialize (IH (pre ++ [f (length pre) x])). rewrite app_length in IH. cbn [length] in IH. rewrite Nat.add_1_r, <- !app_assoc in IH.
  cbn [app] in IH. rewrite IH; [reflexivity|]. intros i l Hi Hl. apply H; cbn [length]; lia.
Qed.
Lemma for_loop_mapi0 {A} (f : nat -> A -> A) (body : nat -> list A -> option (list A)) n s : length s = n ->
  (forall i l, i < n -> length l = n -> body i l = bind (nth_error l i) (fun a => set_at l i (f i a))) ->
  for_loop n 0 body s = Some (mapi 0 f s).
Proof. intros <- H. apply (for_loop_mapi f body s []). intros i l Hi Hl. cbn [length Nat.add] in *. apply H; lia. Qed.
Lemma mapi_nth {A} (f : nat -> A -> A) d l : forall first i, i < length l -> nth i (mapi first f l) d = f (first + i) (nth i l d).
Proof.
  induction l as [|x l IH]; intros first i Hi; cbn [length] in Hi; [lia|]. rewrite mapi_cons. destruct i as [|i]; cbn [nth].
  - now rewrite Nat.add_0_r.
  - rewrite IH by lia. f_equal. lia.
Qed.

Lemma nth_map_seq {A} (g : nat -> A) n d i : i < n -> nth i (map g (seq 0 n)) d = g i.
Proof.
  intros Hi. rewrite (nth_indep _ d (g 0)) by now rewrite map_length, seq_length.
  rewrite (map_nth g), seq_nth by auto. reflexivity.
Qed.

Section P.
Context {F : ring} (R : is_ring F).
Lemma combine_nth_map {A B C} (f : A -> B -> C) (a : list A) (b : list B) da db dc i : length a = length b -> i < length a ->
  nth i (map (fun p => f (fst p) (snd p)) (combine a b)) dc = f (nth i a da) (nth i b db).
Proof.
  intros L Hi. rewrite (nth_indep _ dc (f (fst (da, db)) (snd (da, db)))) by (rewrite map_length, combine_length; lia).
  rewrite (map_nth (fun p => f (fst p) (snd p))), combine_nth by auto. reflexivity.
Qed.
Lemma vadd_length (a b : list F) : length a = length b -> length (vadd a b) = length a.
Proof. intros L. unfold vadd. rewrite map_length, combine_length. lia. Qed.
Lemma vadd_mapi (a b : list F) : length a = length b -> mapi 0 (fun i x => add x (nth i b zero)) a = vadd a b.
Proof.
  intros L. apply nth_ext with (d := zero) (d' := zero); [now rewrite mapi_length, vadd_length|].
  intros i Hi. rewrite mapi_length in Hi. rewrite mapi_nth by auto. unfold vadd. rewrite (combine_nth_map add a b zero zero) by auto. reflexivity.
Qed.
Lemma mat_length (M : list (list F)) s : length (mat M s) = length M.
Proof. apply map_length. Qed.
Lemma sbox_length alpha full (s : list F) : length (sbox alpha full s) = length s.
Proof. destruct s as [|x s]; [reflexivity|]. cbn [sbox length]. destruct full; [now rewrite map_length|reflexivity]. Qed.

(** The tables have the shapes the code gives them. *)
Definition shaped (P : base_policy) (M rc : list (list F)) : Prop :=
  0 < state_words P /\ length M = state_words P /\ Forall (fun row => length row = state_words P) M /\
  length rc = full_rounds P + part_rounds P /\ Forall (fun row => length row = state_words P) rc.

Context (P : base_policy) (M rc : list (list F)) (Sh : shaped P M rc).
Notation t := (state_words P).
Lemma t_pos : 0 < t. Proof. apply Sh. Qed.
Lemma rc_row r : r < full_rounds P + part_rounds P -> length (nth r rc []) = t.
Proof. intros Hr. destruct Sh as (_ & _ & _ & L & Fr). rewrite Forall_forall in Fr. apply Fr, nth_In. lia. Qed.
Lemma get_constant r i : r < full_rounds P + part_rounds P -> i < t -> get_round_constant rc r i = Some (nth i (nth r rc []) zero).
Proof.
  intros Hr Hi. unfold get_round_constant. rewrite (nth_error_nth' rc []) by (destruct Sh as (_ & _ & _ & L & _); lia).
  cbn [bind]. apply nth_error_nth'. now rewrite rc_row.
Qed.
Lemma add_constants_loop r s : r < full_rounds P + part_rounds P -> length s = t ->
  for_loop t 0 (add_constant rc r) s = Some (vadd s (nth r rc [])).
Proof.
  intros Hr Ls. rewrite (for_loop_mapi0 (fun i x => add x (nth i (nth r rc []) zero))); auto.
  - now rewrite vadd_mapi by now rewrite rc_row.
  - intros i l Hi Hl. unfold add_constant. destruct (nth_error l i); [|reflexivity]. cbn [bind]. now rewrite get_constant by lia.
Qed.
Lemma pow_loop (s : list F) : length s = t -> for_loop t 0 (pow_at P) s = Some (sbox (sbox_power P) true s).
Proof.
  intros Ls. rewrite (for_loop_mapi0 (fun _ x => power x (sbox_power P))) by (auto; reflexivity).
  f_equal. destruct s as [|x s]; [reflexivity|]. rewrite mapi_cons. cbn [sbox]. f_equal. unfold mapi.
  clear. generalize 1. induction s as [|y s IH]; intros k; [reflexivity|]. cbn [length seq combine map fst snd]. now rewrite IH.
Qed.
Lemma add_pow_loop r s : r < full_rounds P + part_rounds P -> length s = t ->
  for_loop t 0 (fun i A => bind (add_constant rc r i A) (pow_at P i)) s = Some (sbox (sbox_power P) true (vadd s (nth r rc []))).
Proof.
  intros Hr Ls.
  rewrite (for_loop_mapi0 (fun i x => power (add x (nth i (nth r rc []) zero)) (sbox_power P))); auto.
  - f_equal. assert (Lv : length (vadd s (nth r rc [])) = length s) by (apply vadd_length; now rewrite rc_row).
    apply nth_ext with (d := zero) (d' := zero); [now rewrite mapi_length, sbox_length|].
    intros i Hi. rewrite mapi_length in Hi. rewrite mapi_nth by auto. cbn [Nat.add].
    replace (add (nth i s zero) (nth i (nth r rc []) zero)) with (nth i (vadd s (nth r rc [])) zero).
    2: { rewrite <- vadd_mapi, mapi_nth by (rewrite ?rc_row; auto). reflexivity. }
    assert (Hi' : i < length (vadd s (nth r rc []))) by lia. revert Hi'. generalize (vadd s (nth r rc [])). clear. intros v Hi.
    destruct v as [|y v]; [cbn in Hi; lia|]. cbn [sbox]. destruct i as [|i]; [reflexivity|]. cbn [nth length] in *.
    rewrite (nth_indep (map _ v) zero (power zero (sbox_power P))) by (rewrite map_length; lia).
    now rewrite (map_nth (fun y => power y (sbox_power P))).
  - intros i l Hi Hl. unfold add_constant. destruct (nth_error l i) as [a|] eqn:E; [|reflexivity]. cbn [bind].
    rewrite get_constant by lia. cbn [bind].
    apply nth_error_split in E. destruct E as (l1 & l2 & -> & <-). rewrite set_at_ok. cbn [bind]. unfold pow_at.
    rewrite nth_error_app2, Nat.sub_diag by lia. cbn [nth_error bind]. now rewrite !set_at_ok.
Qed.
Lemma pow_first (s : list F) : length s = t -> pow_at P 0 s = Some (sbox (sbox_power P) false s).
Proof.
  intros Ls. pose proof t_pos. destruct s as [|x s]; [cbn in Ls; lia|]. unfold pow_at. cbn [nth_error bind]. exact (set_at_ok [] x _ s).
Qed.
Lemma sum_ext (f g : nat -> F) l : (forall i, In i l -> f i = g i) -> sum (map f l) = sum (map g l).
Proof. intros H. f_equal. now apply map_ext_in. Qed.
Lemma dot_index (row s : list F) : length row = length s ->
  dot row s = sum (map (fun i => mul (nth i row zero) (nth i s zero)) (seq 0 (length s))).
Proof.
  intros L. unfold dot. f_equal. apply nth_ext with (d := zero) (d' := zero).
  - rewrite !map_length, combine_length, seq_length. lia.
  - intros i Hi. rewrite map_length, combine_length in Hi. rewrite (combine_nth_map mul row s zero zero) by lia.
    now rewrite nth_map_seq by lia.
Qed.
Lemma product_mat s : length s = t -> product_with_mds_matrix P M s = mat M s.
Proof.
  intros Ls. unfold product_with_mds_matrix, vectmatmul. destruct Sh as (_ & LM & FM & _). rewrite Forall_forall in FM.
  apply nth_ext with (d := zero) (d' := zero).
  { now rewrite map_length, seq_length, mat_length, LM. }
  intros j Hj. rewrite map_length, seq_length in Hj. rewrite Ls.
  rewrite nth_map_seq by lia.
  unfold mat. rewrite (nth_indep _ zero (dot [] s)) by (rewrite map_length; lia). rewrite (map_nth (fun row => dot row s)).
  rewrite dot_index by (rewrite Ls; apply FM, nth_In; lia). rewrite Ls. apply sum_ext. intros i Hi. apply in_seq in Hi.
  rewrite (Rmul_comm R). f_equal. unfold mds_matrix.
  now rewrite !nth_map_seq by lia.
Qed.

(** ** Rounds and the permutation *)
Lemma div2_half n : Nat.div2 n = n / 2.
Proof. apply Nat.div2_div. Qed.
Lemma full_original s r : mina_version P = false -> r < full_rounds P + part_rounds P -> length s = t ->
  is_full (full_rounds P) (part_rounds P) r = true ->
  full_round P M rc s r = Some (poseidon_round (sbox_power P) (full_rounds P) (part_rounds P) M rc s r).
Proof.
  intros Hm Hr Ls Hf. unfold full_round. rewrite Hm. unfold full_round_original, full_assert, half_full_rounds. rewrite div2_half.
  unfold poseidon_round, is_full in *. rewrite Hf. rewrite add_pow_loop by auto. cbn [bind]. f_equal.
  apply product_mat. rewrite sbox_length, vadd_length; auto. now rewrite rc_row.
Qed.
Lemma part_original s r : mina_version P = false -> r < full_rounds P + part_rounds P -> length s = t ->
  is_full (full_rounds P) (part_rounds P) r = false ->
  part_round P M rc s r = Some (poseidon_round (sbox_power P) (full_rounds P) (part_rounds P) M rc s r).
Proof.
  intros Hm Hr Ls Hf. unfold part_round. rewrite Hm. unfold part_round_original, part_assert, half_full_rounds. rewrite div2_half.
  unfold poseidon_round, is_full in *. rewrite Hf. apply orb_false_iff in Hf. destruct Hf as [Hf1 Hf2].
  apply Nat.ltb_ge in Hf1. apply Nat.leb_gt in Hf2. apply Nat.leb_le in Hf1. apply Nat.ltb_lt in Hf2. rewrite Hf1, Hf2. cbn [andb].
  rewrite add_constants_loop by auto. cbn [bind]. rewrite pow_first by (rewrite vadd_length; auto; now rewrite rc_row). cbn [bind]. f_equal.
  apply product_mat. rewrite sbox_length, vadd_length; auto. now rewrite rc_row.
Qed.
Lemma round_length s r : length (poseidon_round (sbox_power P) (full_rounds P) (part_rounds P) M rc s r) = t.
Proof. unfold poseidon_round. rewrite mat_length. apply Sh. Qed.
Theorem permute_original s : mina_version P = false -> length s = t ->
  permute_state P M rc s = Some (poseidon_permutation (sbox_power P) (full_rounds P) (part_rounds P) M rc s).
Proof.
  intros Hm Ls. unfold permute_state, poseidon_permutation, half_full_rounds. rewrite div2_half.
  set (RF := full_rounds P). set (RP := part_rounds P). set (f := poseidon_round (sbox_power P) RF RP M rc).
  assert (E : seq 0 (RF + RP) = seq 0 (RF / 2) ++ seq (RF / 2) RP ++ seq (RF / 2 + RP) (RF - RF / 2)).
  { replace (RF + RP) with (RF / 2 + (RP + (RF - RF / 2))) by lia. rewrite !seq_app. reflexivity. }
  rewrite E, !fold_left_app.
  destruct (for_loop_fold (fun s => length s = t) f (fun round_number A => full_round P M rc A round_number) (RF / 2) 0 s) as [E1 L1]; auto.
  { intros i a Hi La. split; [|apply round_length]. apply full_original; auto; [fold RF RP; lia|].
    unfold is_full. fold RF. apply orb_true_iff. left. apply Nat.ltb_lt. lia. }
  rewrite E1. cbn [bind].
  destruct (for_loop_fold (fun s => length s = t) f (fun round_number A => part_round P M rc A round_number) RP (RF / 2)
              (fold_left f (seq 0 (RF / 2)) s)) as [E2 L2]; auto.
  { intros i a Hi La. split; [|apply round_length]. apply part_original; auto; [fold RF RP; lia|].
    unfold is_full. fold RF RP. apply orb_false_iff. split; [apply Nat.ltb_ge|apply Nat.leb_gt]; lia. }
  rewrite E2. cbn [bind].
  destruct (for_loop_fold (fun s => length s = t) f (fun round_number A => full_round P M rc A round_number) (RF - RF / 2) (RF / 2 + RP)
              (fold_left f (seq (RF / 2) RP) (fold_left f (seq 0 (RF / 2)) s))) as [E3 L3]; auto.
  { intros i a Hi La. split; [|apply round_length]. apply full_original; auto; [fold RF RP; lia|].
    unfold is_full. fold RF RP. apply orb_true_iff. right. apply Nat.leb_le. lia. }
Qed.
Lemma full_mina s r : mina_version P = true -> r < full_rounds P + part_rounds P -> length s = t ->
  is_full (full_rounds P) (part_rounds P) r = true ->
  full_round P M rc s r = Some (mina_round (sbox_power P) M rc s r).
Proof.
  intros Hm Hr Ls Hf. unfold full_round. rewrite Hm. unfold full_round_mina, full_assert, half_full_rounds. rewrite div2_half.
  unfold is_full in *. rewrite Hf. rewrite pow_loop by auto. cbn [bind].
  rewrite product_mat by now rewrite sbox_length. apply add_constants_loop; auto. rewrite mat_length. apply Sh.
Qed.
Lemma mina_round_length s r : r < full_rounds P + part_rounds P -> length (mina_round (sbox_power P) M rc s r) = t.
Proof. intros Hr. unfold mina_round. rewrite vadd_length; rewrite mat_length; [apply Sh|]. rewrite rc_row by auto. apply Sh. Qed.
Theorem permute_mina s : mina_version P = true -> part_rounds P = 0 -> length s = t ->
  permute_state P M rc s = Some (mina_permutation (sbox_power P) (full_rounds P) M rc s).
Proof.
  intros Hm H0 Ls. unfold permute_state, mina_permutation, half_full_rounds. rewrite div2_half, H0.
  set (RF := full_rounds P). set (f := mina_round (sbox_power P) M rc). cbn [for_loop bind]. rewrite Nat.add_0_r.
  assert (E : seq 0 RF = seq 0 (RF / 2) ++ seq (RF / 2) (RF - RF / 2)).
  { replace RF with (RF / 2 + (RF - RF / 2)) at 1 by lia. apply seq_app. }
  rewrite E, fold_left_app.
  destruct (for_loop_fold (fun s => length s = t) f (fun round_number A => full_round P M rc A round_number) (RF / 2) 0 s) as [E1 L1]; auto.
  { intros i a Hi La. split; [|apply mina_round_length; fold RF; lia]. apply full_mina; auto; [fold RF; lia|].
    unfold is_full. fold RF. apply orb_true_iff. left. apply Nat.ltb_lt. lia. }
  rewrite E1. cbn [bind].
  destruct (for_loop_fold (fun s => length s = t) f (fun round_number A => full_round P M rc A round_number) (RF - RF / 2) (RF / 2)
              (fold_left f (seq 0 (RF / 2)) s)) as [E3 L3]; auto.
  { intros i a Hi La. split; [|apply mina_round_length; fold RF; lia]. apply full_mina; auto; [fold RF; lia|].
    unfold is_full. fold RF. apply orb_true_iff. right. apply Nat.leb_le. lia. }
Qed.
End P.
