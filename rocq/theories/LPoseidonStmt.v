(** The statements of PPoseidon.v: proofs. *)
From Coq Require Import NArith Arith List Bool Lia ZifyBool ZifyNat ZifyN ZArith Ring_theory Ring.
From Verif Require Import SpecStream LStream SpecPoseidon MPoseidon LPoseidon LPoseidonBij LPoseidonSponge LZp LPoseidonInst.
Import ListNotations.
Local Open Scope nat_scope.
Ltac Zify.zify_post_hook ::= Z.div_mod_to_equations.

(** ** C37 *)
Section Collisions.
Context {F : ring} (dec : forall x y : F, {x = y} + {x <> y}) (perm : list F -> list F) (rate : nat) (Hr : 0 < rate).
Notation H := (fold_left (absorb_group perm)).
Lemma inputs_snoc gs g : forall c, inputs_from perm c (gs ++ [g]) = inputs_from perm c gs ++ [H gs c :: g].
Proof. induction gs as [|h gs IH]; intros c; [reflexivity|]. cbn [app inputs_from fold_left]. now rewrite IH. Qed.
Lemma chain_collision : forall gs gs', H gs zero = H gs' zero ->
  gs = gs' \/ collision perm (inputs_from perm zero gs ++ inputs_from perm zero gs') \/
  (length gs <> length gs' /\ zero_result perm (inputs_from perm zero gs ++ inputs_from perm zero gs')).
Proof.
  induction gs as [|g gs IH] using rev_ind; intros gs' E; destruct gs' as [|g' gs' _] using rev_ind.
  - now left.
  - right. right. split; [rewrite app_length; cbn [length]; lia|]. rewrite fold_left_app in E. cbn [fold_left] in E.
    exists (H gs' zero :: g'). rewrite inputs_snoc. split; [|now symmetry]. apply in_or_app. right. apply in_or_app. right. now left.
  - right. right. split; [rewrite app_length; cbn [length]; lia|]. rewrite fold_left_app in E. cbn [fold_left] in E.
    exists (H gs zero :: g). rewrite inputs_snoc. split; [|exact E]. apply in_or_app. left. apply in_or_app. right. now left.
  - rewrite !fold_left_app in E. cbn [fold_left] in E. rewrite !inputs_snoc.
    destruct (list_eq_dec dec (H gs zero :: g) (H gs' zero :: g')) as [Eq|Ne].
    + injection Eq as E1 E2. subst g'. destruct (IH gs' E1) as [->|[(a & b & Ia & Ib & Hab)|(L & a & Ia & Ha)]]; [now left| |].
      * right. left. exists a, b. split; [|split; [|exact Hab]]; [apply in_app_or in Ia; destruct Ia|apply in_app_or in Ib; destruct Ib];
          apply in_or_app; [left|right|left|right]; apply in_or_app; now left.
      * right. right. split; [rewrite !app_length; cbn [length]; lia|]. exists a. split; [|exact Ha].
        apply in_app_or in Ia. destruct Ia; apply in_or_app; [left|right]; apply in_or_app; now left.
    + right. left. exists (H gs zero :: g), (H gs' zero :: g'). split; [|split; [|split; [exact Ne|exact E]]]; apply in_or_app; [left|right]; apply in_or_app; right; now left.
Qed.
Lemma padded_length (xs : list F) : length (padded rate xs) mod rate = 0 /\ length xs <= length (padded rate xs).
Proof.
  unfold padded. rewrite app_length, repeat_length. split; [|lia]. destruct xs as [|x xs]; [cbn [length Nat.add]; apply Nat.mod_same; lia|].
  set (n := length (x :: xs)). pose proof (Nat.div_mod n rate ltac:(lia)). pose proof (Nat.mod_upper_bound n rate ltac:(lia)).
  destruct (Nat.eq_dec (n mod rate) 0) as [E|E].
  - rewrite E, Nat.sub_0_r, Nat.mod_same, Nat.add_0_r by lia. exact E.
  - rewrite (Nat.mod_small (rate - n mod rate)) by lia. replace (n + (rate - n mod rate)) with ((n / rate + 1) * rate) by nia. apply Nat.mod_mul. lia.
Qed.
Lemma padded_length_eq (xs ys : list F) : length xs = length ys -> length (padded rate xs) = length (padded rate ys).
Proof.
  intros E. unfold padded. rewrite !app_length, !repeat_length. destruct xs, ys; cbn [length] in *; try lia. injection E as E. now rewrite E.
Qed.
Lemma chunks_inj (a b : list F) : length a mod rate = 0 -> length b mod rate = 0 -> chunks rate a = chunks rate b -> a = b.
Proof. intros Ha Hb E. rewrite <- (chunks_concat rate a), <- (chunks_concat rate b) by assumption. now rewrite E. Qed.
Theorem sponge_collision xs ys : sponge perm rate xs = sponge perm rate ys ->
  padded rate xs = padded rate ys \/ collision perm (permutation_inputs perm rate xs ++ permutation_inputs perm rate ys) \/
  zero_result perm (permutation_inputs perm rate xs ++ permutation_inputs perm rate ys).
Proof.
  intros E. destruct (chain_collision _ _ E) as [Eq|[C|[_ Z]]]; auto. left. apply chunks_inj; auto; apply padded_length.
Qed.
Theorem sponge_same_length xs ys : length xs = length ys -> sponge perm rate xs = sponge perm rate ys ->
  xs = ys \/ collision perm (permutation_inputs perm rate xs ++ permutation_inputs perm rate ys).
Proof.
  intros L E. destruct (chain_collision _ _ E) as [Eq|[C|[L' Z]]]; auto.
  - left. apply chunks_inj in Eq; try apply padded_length. unfold padded in Eq.
    assert (X := f_equal (firstn (length xs)) Eq). rewrite firstn_app, Nat.sub_diag, firstn_all, L, firstn_app, Nat.sub_diag, firstn_all in X.
    cbn [firstn] in X. now rewrite !app_nil_r in X.
  - exfalso. apply L'. rewrite !chunks_length by auto. now rewrite (padded_length_eq xs ys L).
Qed.
End Collisions.
(** Equal padded sequences differ in zeros at the end only. *)
Lemma padded_equal {F : ring} rate (xs ys : list F) : padded rate xs = padded rate ys -> length xs <= length ys ->
  exists n, ys = xs ++ repeat zero n.
Proof.
  unfold padded. set (a := match xs with [] => _ | _ => _ end). set (b := match ys with [] => _ | _ => _ end). clearbody a b. intros E L.
  exists (length ys - length xs).
  assert (X := f_equal (firstn (length ys)) E). rewrite (firstn_app _ ys), Nat.sub_diag, firstn_all in X. cbn [firstn] in X. rewrite app_nil_r in X.
  etransitivity; [symmetry; exact X|]. rewrite firstn_app, firstn_all2 by lia. f_equal.
  assert (La : length ys - length xs <= a). { assert (Y := f_equal (@length _) E). rewrite !app_length, !repeat_length in Y. lia. }
  replace a with ((length ys - length xs) + (a - (length ys - length xs))) by lia. rewrite repeat_app, firstn_app, repeat_length, Nat.sub_diag.
  rewrite firstn_all2 by (rewrite repeat_length; lia). cbn [firstn]. now rewrite app_nil_r.
Qed.
Lemma zero_not_needed {F : ring} (perm : list F -> list F) rate (a : F) : 2 <= rate -> sponge perm rate [a] = sponge perm rate [a; zero].
Proof.
  intros H. unfold sponge, chain. f_equal. f_equal. unfold padded. cbn [length].
  destruct (Nat.eq_dec rate 2) as [->|N]; [reflexivity|]. rewrite (Nat.mod_small 1 rate), (Nat.mod_small 2 rate) by lia.
  rewrite (Nat.mod_small (rate - 1)), (Nat.mod_small (rate - 2)) by lia. cbn [app]. f_equal.
  replace (rate - 1) with (S (rate - 2)) by lia. reflexivity.
Qed.
Theorem trailing_zero {F : ring} (P : base_policy) (perm : list F -> list F) (permM : list F -> option (list F)) (a : F) :
  capacity P = 1 -> 2 <= rate P ->
  (forall s, length s = state_words P -> permM s = Some (perm s) /\ length (perm s) = state_words P) ->
  exists h, hash_range P permM [a] = Some h /\ hash_range P permM [a; zero] = Some h.
Proof.
  intros Hc Hr Hp. exists (sponge perm (rate P) [a]). split.
  - apply (hash_range_sponge P perm permM Hc ltac:(lia) Hp).
  - rewrite zero_not_needed by exact Hr. apply (hash_range_sponge P perm permM Hc ltac:(lia) Hp).
Qed.

(** ** C38 *)
Lemma groups_fuel_enough {A} k : 0 < k -> forall f1 f2 (l : list A), length l <= f1 -> length l <= f2 -> groups_fuel f1 k l = groups_fuel f2 k l.
Proof.
  intros Hk. induction f1 as [|f1 IH]; intros f2 l H1 H2.
  - destruct l; [|cbn in H1; lia]. now destruct f2.
  - destruct l as [|x l]; [now destruct f2|]. destruct f2 as [|f2]; [cbn in H2; lia|]. cbn [groups_fuel]. f_equal.
    apply IH; rewrite skipn_length; cbn [length] in *; lia.
Qed.
Lemma groups_step {A} k (l : list A) : 0 < k -> l <> [] -> groups k l = firstn k l :: groups k (skipn k l).
Proof.
  intros Hk N. destruct l as [|x l]; [congruence|]. unfold groups at 1. cbn [length groups_fuel]. f_equal.
  apply groups_fuel_enough; auto; rewrite skipn_length; cbn [length]; lia.
Qed.
Lemma big_endian_snoc w g x : big_endian w (g ++ [x]) = (big_endian w g * 2 ^ Z.of_nat w + x)%Z.
Proof. unfold big_endian. now rewrite fold_left_app. Qed.
Lemma big_endian_bound w g : Forall (fun x => 0 <= x < 2 ^ Z.of_nat w)%Z g -> (0 <= big_endian w g < 2 ^ Z.of_nat (length g * w))%Z.
Proof.
  induction g as [|x g IH] using rev_ind; intros Fg; [cbn; lia|]. apply Forall_app in Fg. destruct Fg as [Fg Fx]. inversion Fx; subst.
  specialize (IH Fg). rewrite big_endian_snoc, app_length. cbn [length]. replace ((length g + 1) * w) with (length g * w + w) by lia.
  rewrite Nat2Z.inj_add, Z.pow_add_r by lia. set (B := (2 ^ Z.of_nat w)%Z) in *. set (C := (2 ^ Z.of_nat (length g * w))%Z) in *. nia.
Qed.
Lemma big_endian_inj w : forall g g', length g = length g' ->
  Forall (fun x => 0 <= x < 2 ^ Z.of_nat w)%Z g -> Forall (fun x => 0 <= x < 2 ^ Z.of_nat w)%Z g' -> big_endian w g = big_endian w g' -> g = g'.
Proof.
  induction g as [|x g IH] using rev_ind; intros g' L Fg Fg' E; destruct g' as [|x' g' _] using rev_ind; rewrite ?app_length in L; cbn [length] in L; try lia; auto.
  apply Forall_app in Fg, Fg'. destruct Fg as [Fg Fx], Fg' as [Fg' Fx']. inversion Fx; inversion Fx'; subst. rewrite !big_endian_snoc in E.
  set (B := (2 ^ Z.of_nat w)%Z) in *. assert (big_endian w g = big_endian w g' /\ x = x') as [E1 ->].
  { set (a := big_endian w g) in *. set (b := big_endian w g') in *. clearbody a b B. assert (a = b) by nia. subst. split; [reflexivity|lia]. }
  f_equal. apply IH; auto. lia.
Qed.
Theorem packed_injective p word_bits w ws ws' : 0 < w <= word_bits -> (2 ^ Z.of_nat (word_bits / w * w) <= p)%Z ->
  length ws = length ws' -> Forall (fun x => 0 <= x < 2 ^ Z.of_nat w)%Z ws -> Forall (fun x => 0 <= x < 2 ^ Z.of_nat w)%Z ws' ->
  map (to_zp p) (packed word_bits w ws) = map (to_zp p) (packed word_bits w ws') -> ws = ws'.
Proof.
  intros Hw Hp. unfold packed. set (k := word_bits / w) in *. assert (Hk : 0 < k) by (apply Nat.div_str_pos; lia).
  assert (G : forall n ws ws', length ws <= n -> length ws = length ws' -> Forall (fun x => 0 <= x < 2 ^ Z.of_nat w)%Z ws -> Forall (fun x => 0 <= x < 2 ^ Z.of_nat w)%Z ws' ->
    map (to_zp p) (map (big_endian w) (groups k ws)) = map (to_zp p) (map (big_endian w) (groups k ws')) -> ws = ws').
  { induction n as [|n IH]; intros l l' Hn L Fl Fl' E.
    - destruct l; [|cbn in Hn; lia]. destruct l'; [reflexivity|discriminate L].
    - destruct l as [|x l]; [destruct l'; [reflexivity|discriminate L]|]. destruct l' as [|x' l']; [discriminate L|].
      rewrite (groups_step k (x :: l)), (groups_step k (x' :: l')) in E by (auto; discriminate). cbn [map] in E. injection E as E1 E2.
      set (m := x :: l) in *. set (m' := x' :: l') in *.
      assert (Bd : forall y, Forall (fun x => 0 <= x < 2 ^ Z.of_nat w)%Z y -> (0 <= big_endian w (firstn k y) < p)%Z).
      { intros y Fy. assert (Fk : Forall (fun x => 0 <= x < 2 ^ Z.of_nat w)%Z (firstn k y)) by (apply Forall_forall; intros z Hz; rewrite Forall_forall in Fy; apply Fy; rewrite <- (firstn_skipn k y); apply in_or_app; now left).
        pose proof (big_endian_bound w _ Fk) as B. assert (Z.of_nat (length (firstn k y) * w) <= Z.of_nat (k * w))%Z by (rewrite firstn_length; nia).
        assert (2 ^ Z.of_nat (length (firstn k y) * w) <= 2 ^ Z.of_nat (k * w))%Z by (apply Z.pow_le_mono_r; lia). lia. }
      rewrite !Z.mod_small in E1 by auto.
      rewrite <- (firstn_skipn k m), <- (firstn_skipn k m'). 
      assert (S1 : forall y, Forall (fun x => 0 <= x < 2 ^ Z.of_nat w)%Z y -> Forall (fun x => 0 <= x < 2 ^ Z.of_nat w)%Z (firstn k y) /\ Forall (fun x => 0 <= x < 2 ^ Z.of_nat w)%Z (skipn k y)).
      { intros y Fy. rewrite <- (firstn_skipn k y) in Fy. now apply Forall_app in Fy. }
      f_equal.
      + apply (big_endian_inj w); [|apply S1, Fl|apply S1, Fl'|exact E1]. rewrite !firstn_length. lia.
      + apply IH; [|rewrite !skipn_length; lia|apply S1, Fl|apply S1, Fl'|exact E2]. rewrite skipn_length. assert (length m = S (length l)) by reflexivity. clear - Hn H Hk. lia. }
  intros L Fl Fl' E. apply (G (length ws)); auto.
Qed.
Theorem wide_undefined {F : ring} (P : base_policy) (of_Z : Z -> F) word_bits (permM : list F -> option (list F)) w ws :
  32 <= w -> ws <> [] -> hash_integers P of_Z word_bits permM w ws = None.
Proof.
  intros Hw N. unfold hash_integers, absorb_integers. destruct (w <=? word_bits) eqn:E; [|reflexivity]. apply Nat.leb_le in E.
  destruct ws as [|x ws]; [congruence|]. cbn [absorb_words]. replace (word_bits <? w) with false by lia. cbn [bind].
  unfold shifted_one. replace (w <? 32) with false by lia. reflexivity.
Qed.
Theorem leading_zero {F : ring} (P : base_policy) (perm : list F -> list F) (permM : list F -> option (list F)) (of_Z : Z -> F) word_bits w x :
  capacity P = 1 -> 0 < rate P ->
  (forall s, length s = state_words P -> permM s = Some (perm s) /\ length (perm s) = state_words P) ->
  (forall a b, of_Z (a + b)%Z = add (of_Z a) (of_Z b)) -> (forall a b, of_Z (a * b)%Z = mul (of_Z a) (of_Z b)) -> of_Z 0%Z = zero ->
  0 < w -> w + w <= word_bits -> w < 32 ->
  exists h, hash_integers P of_Z word_bits permM w [x] = Some h /\ hash_integers P of_Z word_bits permM w [0%Z; x] = Some h.
Proof.
  intros Hc Hr Hp Ha Hm H0 Hw Hww H32. exists (sponge perm (rate P) (map of_Z (packed word_bits w [x]))).
  split; [now apply hash_integers_sponge; auto; lia|]. rewrite (hash_integers_sponge P perm permM Hc Hr Hp of_Z word_bits Ha Hm H0 w Hw ltac:(lia) H32).
  do 3 f_equal. assert (Hk : 2 <= word_bits / w) by (apply Nat.div_le_lower_bound; lia).
  unfold packed. destruct (word_bits / w) as [|[|k]]; [lia|lia|].
  rewrite !groups_step by (try discriminate; lia). cbn [firstn skipn]. rewrite skipn_nil, !firstn_nil. reflexivity.
Qed.

(** ** C40 *)
Section Mds.
Context {F : ring} (R : is_ring F).
Lemma ring_here : ring_theory (@zero F) one add mul sub opp eq. Proof. exact R. Qed.
Add Ring FR : ring_here.
Lemma sum_zeros l : Forall (fun x : F => x = zero) l -> sum l = zero.
Proof. induction 1 as [|x l -> H IH]; [reflexivity|]. cbn [sum fold_right]. fold (sum l). rewrite IH. ring. Qed.
Definition constant_row (n : nat) (row : list F) : Prop := exists c, row = repeat c n.
Lemma drop_constant n j (row : list F) : j <= n -> constant_row (S n) row -> constant_row n (firstn j row ++ skipn (S j) row).
Proof.
  intros Hj (c & ->). exists c. replace (S n) with (j + S (n - j)) by lia. rewrite repeat_app, firstn_app, repeat_length, Nat.sub_diag, firstn_all2 by (rewrite repeat_length; lia).
  cbn [firstn]. rewrite app_nil_r. rewrite skipn_app, repeat_length, skipn_all2 by (rewrite repeat_length; lia). cbn [app].
  replace (S j - j) with 1 by lia. cbn [repeat skipn]. rewrite <- repeat_app. f_equal. lia.
Qed.
Lemma constant_det n : forall M : list (list F), length M = S (S n) -> Forall (constant_row (S (S n))) M -> det (S (S n)) M = zero.
Proof.
  induction n as [|n IH]; intros M L FM.
  - destruct M as [|r1 [|r2 [|]]]; try discriminate L. inversion FM as [|? ? H1 F2]; subst. inversion F2 as [|? ? H2 _]; subst.
    destruct H1 as (a & ->), H2 as (b & ->). cbn. ring.
  - destruct M as [|row rest]; [discriminate L|]. injection L as L. inversion FM; subst. remember (S (S n)) as k eqn:Ek. cbn [det]. subst k. apply sum_zeros, Forall_forall. intros x Hx.
    apply in_map_iff in Hx. destruct Hx as (j & <- & Hj). apply in_seq in Hj. cbv zeta.
    rewrite IH.
    + destruct (Nat.even j); ring.
    + now rewrite map_length.
    + apply Forall_map, Forall_forall. intros r Hin. rewrite Forall_forall in H2. apply drop_constant; [lia|]. auto.
Qed.
Context (eqb : F -> F -> bool) (inversed : F -> F) (words : nat).
Lemma mds_row_constant x y i : forall n j r, mds_row eqb inversed x y i j n = Some r -> r = repeat (inversed (sub (nth i x zero) (nth i y zero))) n.
Proof.
  induction n as [|n IH]; intros j r E; cbn [mds_row] in E; [now injection E as <-|]. cbv zeta in E.
  destruct (_ || _); [discriminate|]. destruct (mds_row eqb inversed x y i (S j) n) eqn:E'; [|discriminate]. injection E as <-. cbn [repeat].
  f_equal. now apply IH in E'.
Qed.
Lemma mds_rows_constant x y : forall n i m, mds_rows eqb inversed words x y i n = Some m -> length m = n /\ Forall (constant_row words) m.
Proof.
  induction n as [|n IH]; intros i m E; cbn [mds_rows] in E; [injection E as <-; auto|].
  destruct (mds_row eqb inversed x y i 0 words) as [row|] eqn:E1; [|discriminate].
  destruct (mds_rows eqb inversed words x y (S i) n) as [rows|] eqn:E2; [|discriminate]. injection E as <-. apply IH in E2. destruct E2 as [L Fm].
  split; [cbn [length]; lia|]. constructor; auto. apply mds_row_constant in E1. rewrite E1. eexists. reflexivity.
Qed.
Theorem never_generated draws : 2 <= words -> eqb zero zero = true -> generate_mds_matrix eqb inversed words draws = None.
Proof.
  intros Hw He. induction draws as [|[x y] draws IH]; [reflexivity|]. cbn [generate_mds_matrix].
  destruct (mds_rows eqb inversed words x y 0 words) as [m|] eqn:E; [|exact IH]. apply mds_rows_constant in E. destruct E as [L Fm].
  destruct words as [|[|n]]; try lia. rewrite constant_det, He by auto. exact IH.
Qed.
End Mds.
Section Draws.
Context {F : ring} (eqb : F -> F -> bool) (inversed : F -> F) (words : nat).
(** The checks on a draw. *)
Lemma mds_row_checked x y i : forall n j, mds_row eqb inversed x y i j n <> None <->
  forall k, j <= k < j + n -> (i <> k -> eqb (nth i x zero) (nth k x zero) = false /\ eqb (nth i y zero) (nth k y zero) = false) /\
                              eqb (nth i x zero) (nth k y zero) = false.
Proof.
  induction n as [|n IH]; intros j; cbn [mds_row]; [split; [intros _ k Hk; lia|discriminate]|]. cbv zeta.
  specialize (IH (S j)).
  destruct (_ || _) eqn:E.
  - split; [intros K; now destruct K|]. intros K. exfalso. specialize (K j ltac:(lia)). destruct K as [K1 K2].
    rewrite K2, orb_false_r in E. destruct (Nat.eqb_spec i j) as [->|D]; [discriminate E|]. cbn [negb andb] in E.
    destruct (K1 D) as [K3 K4]. rewrite K3, K4 in E. discriminate E.
  - apply orb_false_iff in E. destruct E as [E E3]. apply orb_false_iff in E. destruct E as [E1 E2].
    assert (ER : mds_row eqb inversed x y i (S j) n <> None <->
       match mds_row eqb inversed x y i (S j) n with None => None | Some r => Some (inversed (sub (nth i x zero) (nth i y zero)) :: r) end <> None).
    { destruct (mds_row eqb inversed x y i (S j) n); split; intros; congruence. }
    rewrite <- ER, IH. split; intros K k Hk; [|apply K; lia].
    destruct (Nat.eq_dec k j) as [->|D]; [|apply K; lia]. split; [|exact E3].
    intros D. apply Nat.eqb_neq in D. rewrite D in E1, E2. now split.
Qed.
Lemma mds_rows_checked x y : forall n i, mds_rows eqb inversed words x y i n <> None <->
  forall l, i <= l < i + n -> mds_row eqb inversed x y l 0 words <> None.
Proof.
  induction n as [|n IH]; intros i; cbn [mds_rows]; [split; [intros _ k Hk; lia|discriminate]|].
  specialize (IH (S i)). destruct (mds_row eqb inversed x y i 0 words) as [row|] eqn:E.
  - destruct (mds_rows eqb inversed words x y (S i) n) as [rows|] eqn:E2.
    + split; [|discriminate]. intros _ l Hl. destruct (Nat.eq_dec l i) as [->|D]; [congruence|]. apply IH; [discriminate|lia].
    + split; [now intros K|]. intros K. apply IH. intros l Hl. apply K. lia.
  - split; [now intros K|]. intros K. exfalso. apply (K i); [lia|exact E].
Qed.
Theorem draw_kept x y : (forall a b, eqb a b = true <-> a = b) -> length x = words -> length y = words ->
  (mds_rows eqb inversed words x y 0 words <> None <-> NoDup (x ++ y)).
Proof.
  intros He Lx Ly.
  assert (Hf : forall a b, eqb a b = false <-> a <> b).
  { intros a b. rewrite <- (He a b). destruct (eqb a b); split; congruence. }
  rewrite mds_rows_checked. rewrite (NoDup_nth (x ++ y) zero). rewrite app_length, Lx, Ly. split.
  - intros K.
    assert (K' : forall l k, l < words -> k < words -> (l <> k -> nth l x zero <> nth k x zero /\ nth l y zero <> nth k y zero) /\ nth l x zero <> nth k y zero).
    { intros l k Hl Hk. pose proof (proj1 (mds_row_checked x y l words 0) (K l ltac:(lia)) k ltac:(lia)) as [P Q].
      apply Hf in Q. split; [|exact Q]. intros D. destruct (P D) as [P1 P2]. apply Hf in P1, P2. now split. }
    intros i j Hi Hj. destruct (Nat.ltb_spec i words) as [Bi|Bi]; destruct (Nat.ltb_spec j words) as [Bj|Bj];
      [rewrite !app_nth1 by lia|rewrite app_nth1, app_nth2 by lia|rewrite app_nth2, app_nth1 by lia|rewrite !app_nth2 by lia]; rewrite ?Lx; intros E.
    + destruct (Nat.eq_dec i j) as [|D]; [assumption|]. exfalso. exact (proj1 (proj1 (K' i j Bi Bj) D) E).
    + exfalso. now apply (proj2 (K' i (j - words) Bi ltac:(lia))).
    + exfalso. symmetry in E. now apply (proj2 (K' j (i - words) Bj ltac:(lia))).
    + destruct (Nat.eq_dec i j) as [|D]; [assumption|]. exfalso.
      exact (proj2 (proj1 (K' (i - words) (j - words) ltac:(lia) ltac:(lia)) ltac:(lia)) E).
  - intros K l Hl. apply mds_row_checked. intros k Hk. rewrite !Hf. split.
    + intros D. split; intros E; apply D.
      * apply K; [lia|lia|]. now rewrite !app_nth1 by lia.
      * cut (words + l = words + k); [lia|]. apply K; [lia|lia|]. rewrite !app_nth2 by lia. rewrite Lx.
        now replace (words + l - words) with l by lia; replace (words + k - words) with k by lia.
    + intros E. cut (l = words + k); [lia|]. apply K; [lia|lia|]. rewrite app_nth1, app_nth2 by lia. rewrite Lx.
      now replace (words + k - words) with k by lia.
Qed.
End Draws.

(** ** C42 *)
Theorem rate_kept sec rt P : poseidon_policy sec rt = Some P -> ~ (sec = 128 /\ rt = 8) -> rate P = rt /\ state_words P = rt + 1.
Proof.
  unfold poseidon_policy. intros H N. destruct (Nat.eqb_spec sec 80); [|destruct (Nat.eqb_spec sec 128); [|destruct (Nat.eqb_spec sec 256); [|discriminate]]].
  - destruct ((rt =? 1) || (rt =? 2)); [injection H as <-; auto|]. destruct (Nat.eqb_spec rt 4); [injection H as <-; subst; auto|discriminate].
  - destruct ((rt =? 1) || (rt =? 2)); [injection H as <-; auto|]. destruct (Nat.eqb_spec rt 4); [injection H as <-; subst; auto|].
    destruct (Nat.eqb_spec rt 8); [exfalso; auto|discriminate].
  - destruct (rt <=? 4); [injection H as <-; auto|discriminate].
Qed.

Theorem rounds_published sec rt P : poseidon_policy sec rt = Some P ->
  security P = sec /\ capacity P = 1 /\ sbox_power P = 5 /\ full_rounds P = 8 /\ part_rounds P = published_partial_rounds sec (rt + 1) /\
  mina_version P = false.
Proof.
  unfold poseidon_policy. intros H. destruct (Nat.eqb_spec sec 80); [|destruct (Nat.eqb_spec sec 128); [|destruct (Nat.eqb_spec sec 256); [|discriminate]]]; subst sec.
  - destruct (Nat.eqb_spec rt 1); [injection H as <-; subst; repeat split|]. destruct (Nat.eqb_spec rt 2); [injection H as <-; subst; repeat split|].
    cbn [orb] in H. destruct (Nat.eqb_spec rt 4); [injection H as <-; subst; repeat split|discriminate].
  - destruct (Nat.eqb_spec rt 1); [injection H as <-; subst; repeat split|]. destruct (Nat.eqb_spec rt 2); [injection H as <-; subst; repeat split|].
    cbn [orb] in H. destruct (Nat.eqb_spec rt 4); [injection H as <-; subst; repeat split|].
    destruct (Nat.eqb_spec rt 8); [injection H as <-; subst; repeat split|discriminate].
  - destruct (rt <=? 4); [injection H as <-; repeat split|discriminate].
Qed.
(** The degree 5^rounds outgrows 2^security. *)
Theorem degree_margin sec rt P : poseidon_policy sec rt = Some P ->
  (2 ^ Z.of_nat sec * Z.of_nat (rt + 1) <= 5 ^ Z.of_nat (full_rounds P + part_rounds P - 2))%Z.
Proof.
  unfold poseidon_policy. intros H. destruct (Nat.eqb_spec sec 80); [|destruct (Nat.eqb_spec sec 128); [|destruct (Nat.eqb_spec sec 256); [|discriminate]]]; subst sec.
  - destruct (Nat.eqb_spec rt 1); [injection H as <-; subst; vm_compute; discriminate|]. destruct (Nat.eqb_spec rt 2); [injection H as <-; subst; vm_compute; discriminate|].
    cbn [orb] in H. destruct (Nat.eqb_spec rt 4); [injection H as <-; subst; vm_compute; discriminate|discriminate].
  - destruct (Nat.eqb_spec rt 1); [injection H as <-; subst; vm_compute; discriminate|]. destruct (Nat.eqb_spec rt 2); [injection H as <-; subst; vm_compute; discriminate|].
    cbn [orb] in H. destruct (Nat.eqb_spec rt 4); [injection H as <-; subst; vm_compute; discriminate|].
    destruct (Nat.eqb_spec rt 8); [injection H as <-; subst; vm_compute; discriminate|discriminate].
  - destruct (Nat.leb_spec rt 4); [injection H as <-|discriminate]. do 5 (destruct rt as [|rt]; [vm_compute; discriminate|]). exfalso. lia.
Qed.

(** ** Instances *)
Theorem original_instances f sec rt P mds rc : poseidon_policy sec rt = Some P -> constants_data f P = Some (mds, rc) ->
  let p := modulus f in
  let perm := poseidon_permutation 5 8 (part_rounds P) (of_table p mds) (of_table p rc) in
  Znumtheory.prime p /\ state_words P = rt + 1 /\
  (forall s, length s = rt + 1 -> permute_state P (of_table p mds) (of_table p rc) s = Some (perm s)) /\
  bijection_of (fun s => length s = rt + 1) perm.
Proof.
  intros HP HC p perm. destruct (original_cases f sec rt P mds rc HP HC) as (Hm & Ha & Hf & Hr & G).
  assert (Ew : state_words P = rt + 1) by (unfold state_words; rewrite Hr, (g_capacity _ _ _ _ G); reflexivity).
  destruct (good_original _ _ _ _ G Hm) as [G1 G2]. rewrite Ha, Hf, Ew in *. split; [apply G|]. split; [reflexivity|]. now split.
Qed.
Theorem mina_instances f mds rc : constants_data f mina_poseidon_policy = Some (mds, rc) ->
  let p := modulus f in
  let perm := mina_permutation 7 55 (of_table p mds) (of_table p rc) in
  Znumtheory.prime p /\
  (forall s, length s = 3 -> permute_state mina_poseidon_policy (of_table p mds) (of_table p rc) s = Some (perm s)) /\
  bijection_of (fun s => length s = 3) perm.
Proof.
  intros HC p perm. assert (G := mina_cases f mds rc HC). split; [apply G|]. exact (good_mina _ _ _ _ G eq_refl eq_refl).
Qed.
Theorem original_hash f sec rt P mds rc : poseidon_policy sec rt = Some P -> constants_data f P = Some (mds, rc) ->
  let p := modulus f in
  let perm := poseidon_permutation 5 8 (part_rounds P) (of_table p mds) (of_table p rc) in
  forall xs, hash_range P (permute_state P (of_table p mds) (of_table p rc)) xs = Some (sponge perm rt xs).
Proof.
  intros HP HC p perm xs. destruct (original_cases f sec rt P mds rc HP HC) as (Hm & Ha & Hf & Hr & G).
  destruct (original_instances f sec rt P mds rc HP HC) as (_ & Ew & E & [B _]). rewrite <- Hr. fold p perm in E, B.
  apply hash_range_sponge; [apply G|apply G|]. rewrite Ew. intros s Hs. split; [now apply E|now apply B].
Qed.
Theorem mina_hash f mds rc : constants_data f mina_poseidon_policy = Some (mds, rc) ->
  let p := modulus f in
  let perm := mina_permutation 7 55 (of_table p mds) (of_table p rc) in
  forall xs, hash_range mina_poseidon_policy (permute_state mina_poseidon_policy (of_table p mds) (of_table p rc)) xs = Some (sponge perm 2 xs).
Proof.
  intros HC p perm xs. assert (G := mina_cases f mds rc HC). destruct (mina_instances f mds rc HC) as (_ & E & [B _]). fold p perm in E, B.
  change 2 with (rate mina_poseidon_policy). apply hash_range_sponge; [apply G|apply G|]. intros s Hs. split; [now apply E|now apply B].
Qed.
(** ** The permutation over any ring *)
Theorem original_any {F : ring} (P : base_policy) (M rc : list (list F)) s : is_ring F -> mina_version P = false ->
  0 < state_words P -> is_square (state_words P) M -> length rc = full_rounds P + part_rounds P ->
  Forall (fun row => length row = state_words P) rc -> length s = state_words P ->
  permute_state P M rc s = Some (poseidon_permutation (sbox_power P) (full_rounds P) (part_rounds P) M rc s).
Proof. intros HR Hm H0 [M1 M2] L1 L2 Ls. apply permute_original; auto. repeat split; auto. Qed.
Theorem mina_any {F : ring} (P : base_policy) (M rc : list (list F)) s : is_ring F -> mina_version P = true -> part_rounds P = 0 ->
  0 < state_words P -> is_square (state_words P) M -> length rc = full_rounds P ->
  Forall (fun row => length row = state_words P) rc -> length s = state_words P ->
  permute_state P M rc s = Some (mina_permutation (sbox_power P) (full_rounds P) M rc s).
Proof. intros HR Hm Hz H0 [M1 M2] L1 L2 Ls. apply permute_mina; auto. repeat split; auto. lia. Qed.
Theorem original_bijection {F : ring} t alpha (g : F -> F) RF RP (M rc : list (list F)) : is_ring F ->
  (forall x : F, g (power x alpha) = x /\ power (g x) alpha = x) -> is_square t M -> invertible t M ->
  length rc = RF + RP -> Forall (fun row => length row = t) rc ->
  bijection_of (fun s => length s = t) (poseidon_permutation alpha RF RP M rc).
Proof. intros HR. now apply (permutation_bijection HR). Qed.
Theorem mina_bijective {F : ring} t alpha (g : F -> F) rounds (M rc : list (list F)) : is_ring F ->
  (forall x : F, g (power x alpha) = x /\ power (g x) alpha = x) -> is_square t M -> invertible t M ->
  length rc = rounds -> Forall (fun row => length row = t) rc ->
  bijection_of (fun s => length s = t) (mina_permutation alpha rounds M rc).
Proof. intros HR. now apply (mina_bijection HR). Qed.
