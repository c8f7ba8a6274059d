(** Poseidon's sponge: proofs. *)
From Coq Require Import NArith Arith List Bool Lia ZifyBool ZifyNat ZifyN ZArith.
From Verif Require Import SpecStream LStream SpecPoseidon MPoseidon LPoseidon.
Import ListNotations.
Ltac Zify.zify_post_hook ::= Z.div_mod_to_equations.

Lemma nth_error_last {A} (l : list A) d n : length l = S n -> nth_error l n = Some (last l d).
Proof.
  revert n. induction l as [|x l IH]; intros n L; [discriminate|]. injection L as L. destruct l as [|y l].
  - cbn in L. subst n. reflexivity.
  - destruct n as [|n]; [discriminate|]. cbn [nth_error]. rewrite (IH n) by auto. reflexivity.
Qed.
Lemma mod_add_r a b n : 0 < n -> a mod n = 0 -> (a + b) mod n = b mod n.
Proof. intros Hn Ha. rewrite Nat.add_mod, Ha by lia. cbn [Nat.add]. now rewrite Nat.mod_mod by lia. Qed.

Section S.
Context {F : ring} (P : base_policy) (perm : list F -> list F) (permM : list F -> option (list F)).
Context (Hc : capacity P = 1) (Hr : 0 < rate P).
Context (Hperm : forall s, length s = state_words P -> permM s = Some (perm s) /\ length (perm s) = state_words P).
Notation t := (state_words P).
Notation r := (rate P).
Lemma t_S : t = S r. Proof. unfold state_words. lia. Qed.

Lemma padded_split (full g : list F) : length full mod r = 0 -> length g <= r -> (g = [] -> full = []) ->
  padded r (full ++ g) = full ++ g ++ repeat zero (r - length g).
Proof.
  intros Hf Hg Hn. unfold padded. rewrite <- app_assoc. do 2 f_equal. f_equal.
  destruct (full ++ g) as [|x l] eqn:E.
  - apply app_eq_nil in E. destruct E as [-> ->]. cbn [length]. lia.
  - rewrite <- E, app_length, mod_add_r by auto. destruct g as [|y g]; [rewrite Hn in E by auto; discriminate|].
    cbn [length] in *. destruct (Nat.eq_dec (S (length g)) r) as [->|Hne].
    + rewrite Nat.mod_same, Nat.sub_0_r, Nat.sub_diag by lia. apply Nat.mod_same. lia.
    + rewrite (Nat.mod_small (S (length g))) by lia. apply Nat.mod_small. lia.
Qed.
Lemma chain_split c (full g : list F) : length full mod r = 0 -> length g <= r -> (g = [] -> full = []) ->
  chain perm r c (full ++ g) = absorb_group perm (fold_left (absorb_group perm) (chunks r full) c) (g ++ repeat zero (r - length g)).
Proof.
  intros Hf Hg Hn. unfold chain. rewrite padded_split, chunks_snoc, fold_left_app by (auto; rewrite app_length, repeat_length; lia). reflexivity.
Qed.

Definition rep (s : @sponge_object F) (c : F) (pending : list F) : Prop :=
  exists full g, pending = full ++ g /\ length full mod r = 0 /\ length g <= r /\ (g = [] -> full = []) /\
    state s = fold_left (absorb_group perm) (chunks r full) c :: g ++ repeat zero (r - length g) /\ state_count s = S (length g).
Lemma rep_new : rep (new_sponge P) zero [].
Proof.
  exists [], []. cbn [app length]. rewrite Nat.sub_0_r. split; [reflexivity|]. split; [apply Nat.mod_0_l; lia|].
  split; [lia|]. split; [auto|]. split; [|reflexivity].
  unfold new_sponge. cbn [state]. rewrite t_S, chunks_nil. reflexivity.
Qed.
Lemma rep_fresh v : rep {| state := v :: repeat zero (t - 1); state_count := 1 |} v [].
Proof.
  exists [], []. cbn [app length state state_count]. rewrite Nat.sub_0_r, chunks_nil, t_S. cbn [Nat.sub fold_left]. rewrite Nat.sub_0_r.
  split; [reflexivity|]. split; [apply Nat.mod_0_l; lia|]. split; [lia|]. split; [auto|]. split; reflexivity.
Qed.
Lemma state_len c (g : list F) : length g <= r -> length (c :: g ++ repeat zero (r - length g)) = t.
Proof. intros Hg. cbn [length]. rewrite app_length, repeat_length, t_S. lia. Qed.
Lemma permute_rep s c pending : rep s c pending ->
  sponge_permute P permM s = Some {| state := chain perm r c pending :: repeat zero (t - 1); state_count := 1 |}.
Proof.
  intros (full & g & -> & Hf & Hg & Hn & Es & Ec). unfold sponge_permute. rewrite Es.
  destruct (Hperm _ (state_len (fold_left (absorb_group perm) (chunks r full) c) g Hg)) as [E L]. rewrite E. cbn [bind].
  rewrite (nth_error_last _ zero) by (rewrite L, t_S; lia). cbn [bind]. rewrite chain_split by auto. reflexivity.
Qed.
Lemma absorb_rep s c pending x : rep s c pending -> exists s', absorb_element P permM s x = Some s' /\ rep s' c (pending ++ [x]).
Proof.
  intros Rp. assert (Rp' := Rp). destruct Rp' as (full & g & E & Hf & Hg & Hn & Es & Ec). unfold absorb_element. rewrite Ec, t_S. cbn [Nat.eqb].
  destruct (Nat.eqb_spec (length g) r) as [Hl|Hl].
  - rewrite (permute_rep s c pending Rp). cbn [bind state state_count].
    rewrite t_S. cbn [Nat.sub]. rewrite Nat.sub_0_r.
    replace (repeat zero r) with (@zero F :: repeat zero (r - 1)) by (change (@zero F :: repeat zero (r - 1)) with (repeat (@zero F) (S (r - 1))); f_equal; lia).
    assert (G := set_at_ok [chain perm r c pending] zero x (repeat zero (r - 1))). cbn [app length] in G. rewrite G. cbn [bind].
    eexists. split; [reflexivity|]. exists (full ++ g), [x]. cbn [state state_count length app]. subst pending.
    split; [reflexivity|]. split; [rewrite app_length, mod_add_r, Hl, Nat.mod_same by (auto; lia); reflexivity|].
    split; [lia|]. split; [discriminate|]. split; [|reflexivity]. f_equal.
    rewrite chain_split by auto. rewrite Hl, Nat.sub_diag. cbn [repeat]. rewrite app_nil_r.
    rewrite chunks_snoc, fold_left_app by auto. reflexivity.
  - cbn [bind]. rewrite Es, Ec.
    replace (r - length g) with (S (r - S (length g))) by lia. cbn [repeat].
    assert (G := set_at_ok (fold_left (absorb_group perm) (chunks r full) c :: g) zero x (repeat zero (r - S (length g)))).
    cbn [length app] in G. rewrite G. cbn [bind]. eexists. split; [reflexivity|].
    exists full, (g ++ [x]). subst pending. rewrite app_length. cbn [length state state_count]. rewrite Nat.add_1_r.
    split; [now rewrite app_assoc|]. split; [auto|]. split; [lia|]. split; [intros Ea; destruct g; discriminate|]. split; [|reflexivity].
    f_equal. now rewrite <- app_assoc.
Qed.
Lemma absorb_vector_rep xs : forall s c pending, rep s c pending ->
  exists s', absorb_vector P permM s xs = Some s' /\ rep s' c (pending ++ xs).
Proof.
  induction xs as [|x xs IH]; intros s c pending Rp; cbn [absorb_vector].
  - exists s. rewrite app_nil_r. auto.
  - destruct (absorb_rep s c pending x Rp) as (s1 & E & R1). rewrite E. cbn [bind]. destruct (IH s1 c _ R1) as (s2 & E2 & R2).
    exists s2. split; auto. now rewrite <- app_assoc in R2.
Qed.
Lemma squeeze_rep s c pending : rep s c pending ->
  exists s', squeeze P permM s = Some (s', chain perm r c pending) /\ rep s' (chain perm r c pending) [].
Proof.
  intros Rp. unfold squeeze. rewrite (permute_rep s c pending Rp). cbn [bind state nth_error]. eexists. split; [reflexivity|]. apply rep_fresh.
Qed.
Lemma run_calls_rep calls : forall s c pending, rep s c pending -> run_calls P permM s calls = Some (squeezed perm r c pending calls).
Proof.
  induction calls as [|[x|xs|] calls IH]; intros s c pending Rp; cbn [run_calls squeezed]; [reflexivity| | |].
  - destruct (absorb_rep s c pending x Rp) as (s1 & E & R1). rewrite E. cbn [bind]. now apply IH.
  - destruct (absorb_vector_rep xs s c pending Rp) as (s1 & E & R1). rewrite E. cbn [bind]. now apply IH.
  - destruct (squeeze_rep s c pending Rp) as (s1 & E & R1). rewrite E. cbn [bind fst snd]. rewrite (IH s1 _ [] R1). reflexivity.
Qed.
Theorem calls_sponge calls : run_calls P permM (new_sponge P) calls = Some (squeezed perm r zero [] calls).
Proof. apply run_calls_rep, rep_new. Qed.
Theorem hash_range_sponge xs : hash_range P permM xs = Some (sponge perm r xs).
Proof.
  unfold hash_range. destruct (absorb_vector_rep xs _ _ _ rep_new) as (s1 & E & R1). rewrite E. cbn [bind].
  destruct (squeeze_rep _ _ _ R1) as (s2 & E2 & _). rewrite E2. reflexivity.
Qed.
Theorem hash_range_initial_sponge xs x : hash_range_initial P permM xs x = Some (sponge perm r (x :: xs)).
Proof.
  unfold hash_range_initial. destruct (absorb_rep _ _ _ x rep_new) as (s0 & E0 & R0). rewrite E0. cbn [bind].
  destruct (absorb_vector_rep xs _ _ _ R0) as (s1 & E & R1). rewrite E. cbn [bind].
  destruct (squeeze_rep _ _ _ R1) as (s2 & E2 & _). rewrite E2. reflexivity.
Qed.
Theorem hash_element_initial_sponge x y : hash_element_initial P permM x y = Some (sponge perm r [y; x]).
Proof.
  unfold hash_element_initial. destruct (absorb_rep _ _ _ y rep_new) as (s0 & E0 & R0). rewrite E0. cbn [bind].
  destruct (absorb_rep _ _ _ x R0) as (s1 & E & R1). rewrite E. cbn [bind].
  destruct (squeeze_rep _ _ _ R1) as (s2 & E2 & _). rewrite E2. reflexivity.
Qed.
Theorem hash_element_sponge x : hash_element P permM x = Some (sponge perm r [x]).
Proof.
  unfold hash_element. destruct (absorb_rep _ _ _ x rep_new) as (s0 & E0 & R0). rewrite E0. cbn [bind].
  destruct (squeeze_rep _ _ _ R0) as (s2 & E2 & _). rewrite E2. reflexivity.
Qed.

(** ** Packed integers *)
Context (of_Z : Z -> F) (word_bits : nat).
(** What the conversion of integers to field elements is assumed to do. *)
Context (of_Z_add : forall a b, of_Z (a + b) = add (of_Z a) (of_Z b)) (of_Z_mul : forall a b, of_Z (a * b) = mul (of_Z a) (of_Z b)).
Context (of_Z_0 : of_Z 0 = zero).
Context (w : nat) (Hw : 0 < w) (Hww : w <= word_bits) (Hw32 : w < 32).
Notation k := (word_bits / w).
Lemma k_pos : 0 < k. Proof. apply Nat.div_str_pos. lia. Qed.
Lemma bits_left_lt m : m <= k -> (word_bits - m * w <? w) = (m =? k).
Proof.
  intros Hm. pose proof (Nat.div_mod word_bits w) as D. pose proof (Nat.mod_upper_bound word_bits w) as U.
  apply eq_true_iff_eq. rewrite Nat.ltb_lt, Nat.eqb_eq. split; intros H.
  - assert (~ m < k); [|lia]. intros Hlt. assert (S m * w <= w * k) by (rewrite (Nat.mul_comm w); apply Nat.mul_le_mono_r; lia). cbn [Nat.mul] in *. lia.
  - subst m. rewrite (Nat.mul_comm k w). lia.
Qed.
Lemma big_endian_snoc g x : big_endian w (g ++ [x]) = (big_endian w g * 2 ^ Z.of_nat w + x)%Z.
Proof. unfold big_endian. now rewrite fold_left_app. Qed.
(** [g]: the words of the element being built. *)
Lemma groups_full (g ws : list Z) : length g = k -> ws <> [] -> groups k (g ++ ws) = g :: groups k ws.
Proof.
  intros Lg Hws. pose proof k_pos. unfold groups. destruct g as [|x g]; [cbn in Lg; lia|]. cbn [length app groups_fuel].
  rewrite <- Lg. change (x :: g ++ ws) with ((x :: g) ++ ws). rewrite firstn_app, firstn_all, Nat.sub_diag.
  rewrite skipn_app, skipn_all, Nat.sub_diag. cbn [app skipn firstn]. rewrite app_nil_r. f_equal. rewrite app_length.
  assert (G : forall f1 f2 (l : list Z), length l <= f1 -> length l <= f2 -> groups_fuel f1 (length (x :: g)) l = groups_fuel f2 (length (x :: g)) l).
  { clear. intros f1. induction f1 as [|f1 IH]; intros f2 l H1 H2.
    - destruct l; cbn in H1; [|lia]. destruct f2; reflexivity.
    - destruct l as [|y l]; [destruct f2; reflexivity|]. destruct f2 as [|f2]; cbn in H2; [lia|]. cbn [groups_fuel]. f_equal.
      apply IH; cbn [length skipn] in *; rewrite skipn_length; lia. }
  apply G; lia.
Qed.
Lemma groups_small (g : list Z) : 0 < length g <= k -> groups k g = [g].
Proof.
  intros Hg. unfold groups. destruct g as [|x g]; [cbn in Hg; lia|]. cbn [length groups_fuel]. rewrite firstn_all2, skipn_all2 by (cbn [length] in *; lia).
  now destruct (length g).
Qed.
Lemma absorb_words_rep ws : forall s c pending g, rep s c pending -> length g <= k ->
  exists s' gs' g', absorb_words P of_Z word_bits permM w s (of_Z (big_endian w g)) (word_bits - length g * w) ws =
      Some (s', of_Z (big_endian w g'), word_bits - length g' * w) /\ length g' <= k /\
    rep s' c (pending ++ map (fun g => of_Z (big_endian w g)) gs') /\
    (g' = [] -> g = [] /\ ws = [] /\ gs' = []) /\ (g' <> [] -> groups k (g ++ ws) = gs' ++ [g']).
Proof.
  pose proof k_pos as Kp. induction ws as [|x ws IH]; intros s c pending g Rp Hg; cbn [absorb_words].
  - exists s, [], g. rewrite app_nil_r. split; [reflexivity|]. split; [auto|]. cbn [map]. rewrite app_nil_r. split; [auto|]. split; [auto|].
    intros Hn. cbn [app]. apply groups_small. destruct g; [congruence|]. cbn [length] in *. lia.
  - rewrite bits_left_lt by auto. destruct (Nat.eqb_spec (length g) k) as [Hl|Hl].
    + destruct (absorb_rep s c pending (of_Z (big_endian w g)) Rp) as (s1 & E & R1). rewrite E. cbn [bind].
      unfold shifted_one. replace (w <? 32) with true by (symmetry; apply Nat.ltb_lt; lia). cbn [bind].
      destruct (IH s1 c _ [x] R1) as (s2 & gs' & g' & E2 & L2 & R2 & Z2 & G2); [cbn [length]; lia|].
      exists s2, (g :: gs'), g'. split.
      * rewrite <- E2. f_equal; [|cbn [length]; lia]. rewrite <- of_Z_0, <- of_Z_mul, <- of_Z_add. reflexivity.
      * split; [auto|]. split; [cbn [map]; rewrite <- app_assoc in R2; exact R2|]. split; [intros Hn; destruct (Z2 Hn); discriminate|].
        intros Hn. rewrite groups_full by (auto; discriminate). cbn [app]. f_equal. apply (G2 Hn).
    + cbn [bind]. unfold shifted_one. replace (w <? 32) with true by (symmetry; apply Nat.ltb_lt; lia). cbn [bind].
      destruct (IH s c pending (g ++ [x]) Rp) as (s2 & gs' & g' & E2 & L2 & R2 & Z2 & G2); [rewrite app_length; cbn [length]; lia|].
      exists s2, gs', g'. split.
      * rewrite <- E2. rewrite big_endian_snoc, of_Z_add, of_Z_mul, app_length. f_equal. cbn [length]. lia.
      * split; [auto|]. split; [auto|]. split; [intros Hn; destruct (Z2 Hn) as [Hgx _]; destruct g; discriminate|].
        intros Hn. rewrite <- (G2 Hn), <- app_assoc. reflexivity.
Qed.
Lemma absorb_integers_rep ws s c pending : rep s c pending ->
  absorb_integers P of_Z word_bits permM w s ws = Some (chain perm r c (pending ++ map of_Z (packed word_bits w ws))).
Proof.
  intros Rp. pose proof k_pos as Kp. unfold absorb_integers. replace (w <=? word_bits) with true by (symmetry; apply Nat.leb_le; auto).
  destruct (absorb_words_rep ws s c pending [] Rp) as (s1 & gs' & g' & E & L1 & R1 & Z1 & G1); [cbn; lia|].
  cbn [length Nat.mul big_endian fold_left] in E. rewrite Nat.sub_0_r, of_Z_0 in E. rewrite E. cbn [bind].
  assert (Hk : k * w <= word_bits) by (rewrite Nat.mul_comm; apply Nat.mul_div_le; lia).
  destruct g' as [|y g'].
  - destruct (Z1 eq_refl) as (_ & -> & ->). cbn [length Nat.mul]. rewrite Nat.sub_0_r, Nat.eqb_refl. cbn [bind].
    destruct (squeeze_rep _ _ _ R1) as (s2 & E2 & _). rewrite E2. reflexivity.
  - replace (word_bits - length (y :: g') * w =? word_bits) with false.
    2: { symmetry. apply Nat.eqb_neq. cbn [length Nat.mul]. lia. }
    destruct (absorb_rep _ _ _ (of_Z (big_endian w (y :: g'))) R1) as (s2 & E2 & R2). rewrite E2. cbn [bind].
    destruct (squeeze_rep _ _ _ R2) as (s3 & E3 & _). rewrite E3. cbn [bind snd]. do 2 f_equal.
    unfold packed. rewrite <- (app_nil_l ws), G1 by discriminate. rewrite !map_app, map_map, <- app_assoc. reflexivity.
Qed.
Theorem hash_integers_sponge ws : hash_integers P of_Z word_bits permM w ws = Some (sponge perm r (map of_Z (packed word_bits w ws))).
Proof. apply (absorb_integers_rep ws _ _ [] rep_new). Qed.
Theorem hash_integers_initial_sponge ws x :
  hash_integers_initial P of_Z word_bits permM w ws x = Some (sponge perm r (x :: map of_Z (packed word_bits w ws))).
Proof.
  unfold hash_integers_initial. destruct (absorb_rep _ _ _ x rep_new) as (s0 & E0 & R0). rewrite E0. cbn [bind].
  apply (absorb_integers_rep ws _ _ [x] R0).
Qed.
End S.
