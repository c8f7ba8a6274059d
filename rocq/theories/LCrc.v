(** The CRC hash: proofs. *)
From Coq Require Import NArith Arith List Bool Lia ZifyBool ZifyNat ZifyN ZArith.
From Verif Require Import SpecStream LStream MPack LArith SpecWords LWords LBsp LMDStmt SpecCrc MCrc.
Import ListNotations.
Local Open Scope N_scope.
Ltac Zify.zify_post_hook ::= Z.div_mod_to_equations.

(** Contract of the external computer. *)
Definition computes (cc : crc_computer) (P : crc_parameters) : Prop :=
  (forall s os, cc_bytes cc s os = fold_left (cc_byte cc) os s) /\
  (forall os, Forall (fits 8) os -> cc_checksum cc (fold_left (cc_byte cc) os (cc_reset cc)) = CRC P os).

Definition octets_of (o : crc_op) : list N :=
  match o with Range _ xs => xs | Value x => [x] | Block _ xs => xs | Extract => [] end.
Fixpoint expected (P : crc_parameters) (os : list N) (ops : list crc_op) : list (list N) :=
  match ops with
  | [] => []
  | Extract :: r => CRC_octets P os :: expected P os r
  | o :: r => expected P (os ++ octets_of o) r
  end.

Section C.
Context (cc : crc_computer) (P : crc_parameters) (HP : crc_ok P) (HC : computes cc P).

Lemma update_loop_fold xs : forall s, Forall (fits 8) xs -> update_loop cc s xs = fold_left (cc_byte cc) xs s.
Proof.
  induction xs as [|x xs IH]; intros s F; [reflexivity|]. inversion F; subst. cbn [update_loop fold_left].
  rewrite IH by auto. f_equal. unfold update_one. f_equal. apply N.mod_small. assumption.
Qed.
Lemma range_fold it s xs : Forall (fits 8) xs -> construction_range cc it s xs = fold_left (cc_byte cc) xs s.
Proof.
  intros F. destruct it; cbn; rewrite ?(proj1 HC); auto using update_loop_fold.
Qed.
Lemma each_value_fold xs : forall s, Forall (fits 8) xs -> each_value cc s xs = fold_left (cc_byte cc) xs s.
Proof.
  induction xs as [|x xs IH]; intros s F; [reflexivity|]. inversion F; subst. cbn [each_value fold_left].
  rewrite IH by auto. f_equal. unfold acc_value, update_one. f_equal. apply N.mod_small. assumption.
Qed.
Lemma stream_fold it s xs : Forall (fits 8) xs -> stream_range cc it s xs = Some (fold_left (cc_byte cc) xs s).
Proof.
  intros F. destruct it; unfold stream_range, acc_iterator;
    replace (length xs * 1 * 8 / 8)%nat with (length xs) by lia;
    rewrite ?Nat.leb_refl, ?firstn_all, ?range_fold, ?each_value_fold by auto; reflexivity.
Qed.

Lemma lxor_fits' n x y : fits n x -> fits n y -> fits n (N.lxor x y).
Proof. apply lxor_fits. Qed.

Lemma reflect_snoc n r : reflect (S n) r = 2 * reflect n r + N.b2n (N.testbit r (N.of_nat n)).
Proof. unfold reflect. rewrite seq_S, fold_left_app. reflexivity. Qed.
Lemma reflect_fits n r : fits n (reflect n r).
Proof.
  unfold fits. induction n as [|n IH]; [reflexivity|]. rewrite reflect_snoc.
  replace (N.of_nat (S n)) with (N.succ (N.of_nat n)) by lia. rewrite N.pow_succ_r'.
  destruct (N.testbit r (N.of_nat n)); cbn [N.b2n]; lia.
Qed.
Lemma divide_fits r b : fits (W P) (divide_bit P r b).
Proof.
  unfold divide_bit. destruct xorb; [apply lxor_fits|]; try apply HP; unfold fits; apply N.mod_lt; now apply N.pow_nonzero.
Qed.
Lemma register_fits bs r : fits (W P) r -> fits (W P) (fold_left (divide_bit P) bs r).
Proof. revert r; induction bs; intros r F; cbn [fold_left]; auto using divide_fits. Qed.
Lemma crc_fits os : fits (W P) (CRC P os).
Proof.
  unfold CRC. apply lxor_fits; [|apply HP]. destruct reflect_rem; [apply reflect_fits|].
  apply register_fits. apply HP.
Qed.

Lemma digest_crc s x : cc_checksum cc s = x -> digest cc (W P) s = rev (octets_le (W P / 8) x).
Proof.
  intros E. unfold digest. rewrite E. destruct HP as (H1 & H2 & _).
  assert (EW : (W P = 8 * (W P / 8))%nat) by lia.
  pose proof (pack_be (W P / 8) [x] ltac:(lia)) as K. rewrite <- EW in K. unfold pack_from in K. rewrite K.
  unfold be_octets. cbn [flat_map]. rewrite app_nil_r. apply firstn_all2.
  rewrite rev_length, octets_le_length. lia.
Qed.
Lemma digest_octets os : Forall (fits 8) os ->
  digest cc (W P) (fold_left (cc_byte cc) os (cc_reset cc)) = CRC_octets P os.
Proof. intros F. apply digest_crc. now apply HC. Qed.

Lemma history_from ops : forall os,
  Forall (fits 8) os ->
  Forall (fun o => match o with Range _ xs | Block _ xs => Forall (fits 8) xs | Value x => fits 8 x | Extract => True end) ops ->
  crc_run cc (W P) (fold_left (cc_byte cc) os (cc_reset cc)) ops =
  Some (expected P os ops).
Proof.
  induction ops as [|o ops IH]; intros os F FO; [reflexivity|]. inversion FO as [|? ? Ho FO']; subst.
  destruct o as [it xs|x|it xs|]; cbn [crc_run].
  - rewrite stream_fold by auto. rewrite <- fold_left_app. apply IH; auto. now apply Forall_app.
  - unfold acc_value, update_one. rewrite N.mod_small by exact Ho.
    change (cc_byte cc (fold_left (cc_byte cc) os (cc_reset cc)) x)
      with (fold_left (cc_byte cc) [x] (fold_left (cc_byte cc) os (cc_reset cc))).
    rewrite <- fold_left_app. apply IH; auto. apply Forall_app. auto.
  - unfold acc_block. rewrite range_fold by auto. rewrite <- fold_left_app. apply IH; auto. now apply Forall_app.
  - rewrite IH by auto. unfold crc_result. now rewrite digest_octets.
Qed.

(** ** Burst errors *)
Notation wn := (N.of_nat (W P)).
Lemma n_pos : 0 < wn. Proof. destruct HP. lia. Qed.
Definition T (r : N) : N := divide_bit P r false.
Definition top : N := 2 ^ (wn - 1).

Lemma mod_testbit a k i : N.testbit (a mod 2 ^ k) i = (i <? k) && N.testbit a i.
Proof.
  destruct (N.ltb_spec i k); cbn.
  - now apply N.mod_pow2_bits_low.
  - now apply N.mod_pow2_bits_high.
Qed.
Lemma double_testbit a i : N.testbit (2 * a) i = (1 <=? i) && N.testbit a (i - 1).
Proof.
  destruct (N.leb_spec 1 i); cbn.
  - replace i with (N.succ (i - 1)) at 1 by lia. apply N.testbit_even_succ. lia.
  - replace i with 0 by lia. apply N.testbit_even_0.
Qed.
Lemma T_testbit r i : N.testbit (T r) i =
  xorb ((i <? wn) && ((1 <=? i) && N.testbit r (i - 1))) (N.testbit r (wn - 1) && N.testbit (poly P) i).
Proof.
  unfold T, divide_bit. replace (N.of_nat (W P - 1)) with (wn - 1) by lia. rewrite xorb_false_r.
  destruct (N.testbit r (wn - 1)); [rewrite N.lxor_spec|]; rewrite mod_testbit, double_testbit; [reflexivity|].
  now rewrite andb_false_l, xorb_false_r.
Qed.
Lemma T_lxor a b : T (N.lxor a b) = N.lxor (T a) (T b).
Proof.
  apply N.bits_inj; intro i. rewrite N.lxor_spec, !T_testbit, !N.lxor_spec.
  destruct (i <? wn), (1 <=? i), (N.testbit a (i - 1)), (N.testbit b (i - 1)), (N.testbit a (wn - 1)),
    (N.testbit b (wn - 1)), (N.testbit (poly P) i); reflexivity.
Qed.
Lemma T_0 : T 0 = 0.
Proof. apply N.bits_inj; intro i. rewrite T_testbit, !N.bits_0. now rewrite !andb_false_r. Qed.
Lemma iter_T_lxor k a b : Nat.iter k T (N.lxor a b) = N.lxor (Nat.iter k T a) (Nat.iter k T b).
Proof. induction k as [|k IH]; [reflexivity|]. cbn [Nat.iter nat_rect] in *. unfold Nat.iter in IH. now rewrite IH, T_lxor. Qed.

Lemma T_pow2 j : j + 1 < wn -> T (2 ^ j) = 2 ^ (j + 1).
Proof.
  intros L. apply N.bits_inj; intro i. rewrite T_testbit, !N.pow2_bits_eqb.
  destruct (N.eqb_spec j (wn - 1)); [lia|]. rewrite andb_false_l, xorb_false_r.
  destruct (N.ltb_spec i wn), (N.leb_spec 1 i), (N.eqb_spec j (i - 1)), (N.eqb_spec (j + 1) i); try reflexivity; lia.
Qed.
Lemma iter_T_pow2 k : forall j, j + N.of_nat k < wn -> Nat.iter k T (2 ^ j) = 2 ^ (j + N.of_nat k).
Proof.
  induction k as [|k IH]; intros j L.
  - cbn. now rewrite N.add_0_r.
  - change (Nat.iter (S k) T (2 ^ j)) with (T (Nat.iter k T (2 ^ j))).
    rewrite IH by lia. rewrite T_pow2 by lia. f_equal. lia.
Qed.
Lemma step_T r b : divide_bit P r b = T (N.lxor r (if b then top else 0)).
Proof.
  apply N.bits_inj; intro i. rewrite T_testbit. unfold divide_bit.
  replace (N.of_nat (W P - 1)) with (wn - 1) by lia.
  assert (B : forall j, N.testbit (if b then top else 0) j = b && (j =? wn - 1)).
  { intros j. destruct b; [|apply N.bits_0]. unfold top. rewrite N.pow2_bits_eqb, N.eqb_sym. reflexivity. }
  rewrite !N.lxor_spec, !B. rewrite N.eqb_refl, andb_true_r.
  assert (S : N.testbit ((2 * r) mod 2 ^ wn) i =
    (i <? wn) && ((1 <=? i) && xorb (N.testbit r (i - 1)) (b && (i - 1 =? wn - 1)))).
  { rewrite mod_testbit, double_testbit. destruct (N.ltb_spec i wn), (N.leb_spec 1 i), (N.eqb_spec (i - 1) (wn - 1));
      rewrite ?andb_false_r, ?xorb_false_r; try reflexivity. lia. }
  destruct (xorb (N.testbit r (wn - 1)) b); rewrite ?N.lxor_spec, S; [reflexivity|].
  now rewrite andb_false_l, xorb_false_r.
Qed.

Lemma difference bs : forall bs' r r', length bs = length bs' ->
  N.lxor (fold_left (divide_bit P) bs r) (fold_left (divide_bit P) bs' r') =
  fold_left (divide_bit P) (map (fun p => xorb (fst p) (snd p)) (combine bs bs')) (N.lxor r r').
Proof.
  induction bs as [|b bs IH]; intros [|b' bs'] r r' L; try discriminate L; [reflexivity|].
  cbn [fold_left combine map fst snd]. rewrite IH by (cbn in L; lia). f_equal.
  rewrite !step_T, <- T_lxor. f_equal. apply N.bits_inj; intro i. rewrite !N.lxor_spec.
  destruct b, b'; cbn [xorb]; rewrite ?N.bits_0; destruct (N.testbit r i), (N.testbit r' i), (N.testbit top i); reflexivity.
Qed.

(** The value of a burst aligned with the top of the register. *)
Fixpoint aligned (k : nat) (bs : list bool) : N :=
  match bs with [] => 0 | b :: bs' => N.lxor (if b then 2 ^ (wn - 1 - N.of_nat k) else 0) (aligned (S k) bs') end.

Lemma aligned_snoc bs b : forall k, aligned k (bs ++ [b]) =
  N.lxor (aligned k bs) (if b then 2 ^ (wn - 1 - N.of_nat (k + length bs)) else 0).
Proof.
  induction bs as [|c bs IH]; intros k; cbn [app aligned length].
  - now rewrite Nat.add_0_r, N.lxor_0_r, N.lxor_0_l.
  - rewrite IH, N.lxor_assoc. do 3 f_equal. now rewrite Nat.add_succ_r.
Qed.

Lemma burst_register bs : (length bs <= W P)%nat ->
  fold_left (divide_bit P) bs 0 = Nat.iter (length bs) T (aligned 0 bs).
Proof.
  induction bs as [|b bs IH] using rev_ind; intros L; [reflexivity|]. rewrite app_length in L. cbn in L.
  rewrite fold_left_app, app_length, Nat.add_comm. cbn [fold_left length Nat.add].
  change (Nat.iter (S (length bs)) T ?x) with (T (Nat.iter (length bs) T x)).
  rewrite IH by lia. rewrite step_T, aligned_snoc. f_equal. rewrite iter_T_lxor. f_equal. cbn [Nat.add].
  destruct b.
  - rewrite iter_T_pow2 by (pose proof n_pos; lia). unfold top. f_equal. lia.
  - symmetry. generalize (length bs). intros m. clear. induction m as [|m IH]; [reflexivity|].
    change (Nat.iter (S m) T 0) with (T (Nat.iter m T 0)). rewrite IH. apply T_0.
Qed.

Lemma aligned_zero bs : forall k, (k + length bs <= W P)%nat -> aligned k bs = 0 -> bs = repeat false (length bs).
Proof.
  assert (A : forall bs k i, (k + length bs <= W P)%nat -> (wn <= i + N.of_nat k) -> N.testbit (aligned k bs) i = false).
  { clear. induction bs as [|b bs IH]; intros k i L H; [apply N.bits_0|]. cbn [aligned length] in *.
    rewrite N.lxor_spec, IH by lia. rewrite xorb_false_r. destruct b; [|apply N.bits_0].
    rewrite N.pow2_bits_eqb. apply N.eqb_neq. lia. }
  induction bs as [|b bs IH]; intros k L H; [reflexivity|]. cbn [aligned length repeat] in *.
  assert (b = false).
  { destruct b; [|reflexivity]. exfalso.
    assert (K : N.testbit (N.lxor (2 ^ (wn - 1 - N.of_nat k)) (aligned (S k) bs)) (wn - 1 - N.of_nat k) = false)
      by (rewrite H; apply N.bits_0).
    rewrite N.lxor_spec, A in K by lia. rewrite N.pow2_bits_true in K. discriminate K. }
  subst b. f_equal. apply (IH (S k)); [lia|]. now rewrite N.lxor_0_l in H.
Qed.

Context (odd : N.testbit (poly P) 0 = true).

Lemma T_zero r : fits (W P) r -> T r = 0 -> r = 0.
Proof.
  intros F H. assert (B : forall i, N.testbit (T r) i = false) by (intros; rewrite H; apply N.bits_0).
  pose proof n_pos as Hn.
  assert (Top : N.testbit r (wn - 1) = false).
  { specialize (B 0). rewrite T_testbit, odd in B. cbn in B. rewrite andb_false_r, andb_true_r, xorb_false_l in B. exact B. }
  apply N.bits_inj; intro i. rewrite N.bits_0. destruct (N.lt_ge_cases i wn).
  - destruct (N.eq_dec i (wn - 1)); [now subst|].
    specialize (B (i + 1)). rewrite T_testbit, Top in B. rewrite andb_false_l, xorb_false_r in B.
    replace (i + 1 - 1) with i in B by lia.
    destruct (N.ltb_spec (i + 1) wn), (N.leb_spec 1 (i + 1)); try lia. exact B.
  - rewrite <- (N.mod_small r (2 ^ wn)) by exact F. now apply N.mod_pow2_bits_high.
Qed.
Lemma T_fits r : fits (W P) (T r).
Proof. apply divide_fits. Qed.
Lemma iter_T_zero k : forall r, fits (W P) r -> Nat.iter k T r = 0 -> r = 0.
Proof.
  induction k as [|k IH]; intros r F H; [exact H|].
  change (Nat.iter (S k) T r) with (T (Nat.iter k T r)) in H.
  apply IH; auto. apply T_zero; auto. clear H IH. induction k; [exact F|]. apply T_fits.
Qed.
Lemma aligned_fits bs : forall k, (k + length bs <= W P)%nat -> fits (W P) (aligned k bs).
Proof.
  induction bs as [|b bs IH]; intros k L; cbn [aligned length] in *.
  - unfold fits. now apply N.neq_0_lt_0, N.pow_nonzero.
  - apply lxor_fits; [|apply IH; lia]. pose proof n_pos. unfold fits.
    destruct b; [apply N.pow_lt_mono_r; lia|now apply N.neq_0_lt_0, N.pow_nonzero].
Qed.

Lemma zeros_register m : forall r, fits (W P) r -> fold_left (divide_bit P) (repeat false m) r = 0 -> r = 0.
Proof.
  induction m as [|m IH]; intros r F H; [exact H|]. cbn [repeat fold_left] in H.
  apply T_zero; auto. apply IH; auto. apply T_fits.
Qed.

Lemma reflect_testbit m r i : (i < m)%nat -> N.testbit (reflect m r) (N.of_nat i) = N.testbit r (N.of_nat (m - 1 - i)).
Proof.
  revert i. induction m as [|m IH]; intros i L; [lia|]. rewrite reflect_snoc.
  destruct i as [|i].
  - cbn [N.of_nat]. rewrite N.add_comm, N.bit0_odd, N.odd_add_mul_2. replace (S m - 1 - 0)%nat with m by lia.
    destruct (N.testbit r (N.of_nat m)); reflexivity.
  - replace (N.of_nat (S i)) with (N.succ (N.of_nat i)) by lia.
    assert (K : forall b, N.testbit (2 * reflect m r + N.b2n b) (N.succ (N.of_nat i)) = N.testbit (reflect m r) (N.of_nat i)).
    { intros [|]; cbn [N.b2n]; [apply N.testbit_odd_succ; lia|]. rewrite N.add_0_r. apply N.testbit_even_succ. lia. }
    rewrite K, IH by lia. do 2 f_equal. lia.
Qed.
Lemma reflect_inj r r' : fits (W P) r -> fits (W P) r' -> reflect (W P) r = reflect (W P) r' -> r = r'.
Proof.
  intros F F' E. apply N.bits_inj; intro i. destruct (N.lt_ge_cases i wn).
  - replace i with (N.of_nat (W P - 1 - (W P - 1 - N.to_nat i))) by lia.
    rewrite <- !reflect_testbit by lia. now rewrite E.
  - rewrite <- (N.mod_small r (2 ^ wn)), <- (N.mod_small r' (2 ^ wn)) by assumption.
    now rewrite !N.mod_pow2_bits_high.
Qed.

Lemma burst os os' pre mid mid' post :
  message_bits P os = pre ++ mid ++ post -> message_bits P os' = pre ++ mid' ++ post ->
  length mid = length mid' -> (length mid <= W P)%nat -> mid <> mid' -> CRC P os <> CRC P os'.
Proof.
  intros E E' L LW D C. unfold CRC in C.
  assert (X : forall a b c, N.lxor a c = N.lxor b c -> a = b).
  { intros a b c K. rewrite <- (N.lxor_0_r a), <- (N.lxor_0_r b), <- (N.lxor_nilpotent c), <- !N.lxor_assoc.
    now rewrite K. }
  apply X in C. destruct HP as (_ & _ & _ & Hi & _).
  assert (R : fold_left (divide_bit P) (message_bits P os) (init P) =
              fold_left (divide_bit P) (message_bits P os') (init P)).
  { destruct (reflect_rem P); [|exact C]. apply reflect_inj; auto using register_fits. }
  clear C. apply N.lxor_eq_0_iff in R. rewrite E, E' in R. rewrite !fold_left_app in R.
  set (r := fold_left (divide_bit P) pre (init P)) in R.
  rewrite difference in R by reflexivity.
  replace (map (fun p => xorb (fst p) (snd p)) (combine post post)) with (repeat false (length post)) in R.
  2:{ clear. induction post as [|b post IH]; [reflexivity|]. cbn. rewrite IH, xorb_nilpotent. reflexivity. }
  apply zeros_register in R.
  2:{ apply lxor_fits; apply register_fits, register_fits; auto. }
  rewrite difference, N.lxor_nilpotent in R by auto.
  rewrite burst_register in R by (rewrite map_length, combine_length; lia).
  apply iter_T_zero in R.
  2:{ apply aligned_fits. rewrite map_length, combine_length. lia. }
  apply aligned_zero in R; [|rewrite map_length, combine_length; lia].
  apply D. clear - L R. rewrite map_length in R. revert mid' L R.
  induction mid as [|b mid IH]; intros [|b' mid'] L R; try discriminate L; [reflexivity|].
  cbn in R. injection R as R1 R2. f_equal; [now destruct b, b'|]. apply IH; auto.
Qed.

Lemma burst_octets os os' pre mid mid' post :
  message_bits P os = pre ++ mid ++ post -> message_bits P os' = pre ++ mid' ++ post ->
  length mid = length mid' -> (length mid <= W P)%nat -> mid <> mid' -> CRC_octets P os <> CRC_octets P os'.
Proof.
  intros E E' L LW D C. apply (burst os os' pre mid mid' post); auto.
  unfold CRC_octets in C. apply (f_equal (@rev N)) in C. rewrite !rev_involutive in C.
  assert (V : forall x, fits (W P) x -> le_value (octets_le (W P / 8) x) = x).
  { destruct HP as (H1 & H2 & _). intros x Fx. apply (f_equal (fun f => f)) in H2.
    assert (EW : (W P = 8 * (W P / 8))%nat) by lia. rewrite EW in Fx. revert x Fx. generalize (W P / 8)%nat. clear.
    intros m. induction m as [|m IH]; intros x Fx.
    - unfold fits in Fx. cbn in *. lia.
    - cbn [octets_le le_value]. rewrite IH.
      + rewrite (N.div_mod x 256) at 3 by discriminate. lia.
      + unfold fits in *. apply N.div_lt_upper_bound; [discriminate|].
        change 256 with (2 ^ 8). rewrite <- N.pow_add_r. replace (8 + N.of_nat (8 * m)) with (N.of_nat (8 * S m)) by lia. exact Fx. }
  rewrite <- (V _ (crc_fits os)), <- (V _ (crc_fits os')). now rewrite C.
Qed.
End C.

(** A computer that keeps the register: the contract can be met. *)
Definition register_computer (P : crc_parameters) : crc_computer :=
  let byte r o := fold_left (divide_bit P) (message_bits P [o]) r in
  Mk_computer N (init P) byte (fun r os => fold_left byte os r)
    (fun r => N.lxor (if reflect_rem P then reflect (W P) r else r) (final_xor P)).
Lemma register_computes P : computes (register_computer P) P.
Proof.
  split; [reflexivity|]. intros os _. unfold CRC. cbn [register_computer cc_checksum cc_byte cc_reset].
  assert (E : forall os r, fold_left (fun r o => fold_left (divide_bit P) (message_bits P [o]) r) os r =
    fold_left (divide_bit P) (message_bits P os) r).
  { induction os0 as [|o os0 IH]; intros r; [reflexivity|]. cbn [fold_left]. rewrite IH.
    rewrite <- fold_left_app. unfold message_bits. cbn [flat_map]. now rewrite app_nil_r. }
  now rewrite E.
Qed.
Lemma png_ok : crc_ok CRC32_PNG.
Proof. repeat split; cbn; auto. lia. Qed.

(** Closing forms. *)
Lemma history cc P ops :
  crc_ok P -> computes cc P -> Forall (fun o => Forall (fits 8) (octets_of o)) ops ->
  crc_run cc (W P) (crc_init cc) ops = Some (expected P [] ops).
Proof.
  intros HP HC F.
  pose proof (history_from cc P HP HC ops [] ltac:(constructor)) as H. cbn [fold_left] in H.
  unfold crc_init. rewrite H.
  - reflexivity.
  - eapply Forall_impl; [|exact F]. intros [| | |]; cbn; auto. intros K. now inversion K.
Qed.
Lemma digest_range cc P it os : crc_ok P -> computes cc P -> Forall (fits 8) os ->
  exists s, stream_range cc it (crc_init cc) os = Some s /\ crc_result cc (W P) s = rev (octets_le (W P / 8) (CRC P os)).
Proof.
  intros HP HC F. eexists. split; [apply (stream_fold cc P HC); auto|].
  unfold crc_result, crc_init. exact (digest_octets cc P HP HC os F).
Qed.
Lemma end_message_ok cc P os : crc_ok P -> computes cc P -> Forall (fits 8) os ->
  end_message cc (W P) (update_n cc Pointer (crc_init cc) os) = (CRC_octets P os, crc_init cc).
Proof.
  intros HP HC F. unfold end_message, update_n, crc_init. rewrite (proj1 HC), (digest_octets cc P HP HC os F). reflexivity.
Qed.
Lemma hypotheses : crc_ok CRC32_PNG /\ exists cc, computes cc CRC32_PNG.
Proof. split; [exact png_ok|]. exists (register_computer CRC32_PNG). apply register_computes. Qed.
Lemma model_run : exists cc, computes cc CRC32_PNG /\
  crc_run cc 32 (crc_init cc) [Extract; Range Weaker [97]; Value 98; Extract; Range Pointer [99]; Extract] =
  Some [[0; 0; 0; 0]; [0x9e; 0x83; 0x48; 0x6d]; [0x35; 0x24; 0x41; 0xc2]].
Proof. exists (register_computer CRC32_PNG). split; [apply register_computes|]. vm_compute. reflexivity. Qed.
Lemma burst_digests cc P it it' os os' before bst bst' after :
  crc_ok P -> N.odd (poly P) = true -> computes cc P -> Forall (fits 8) os -> Forall (fits 8) os' ->
  message_bits P os = before ++ bst ++ after -> message_bits P os' = before ++ bst' ++ after ->
  length bst = length bst' -> (length bst <= W P)%nat -> bst <> bst' ->
  exists s s', stream_range cc it (crc_init cc) os = Some s /\ stream_range cc it' (crc_init cc) os' = Some s' /\
    crc_result cc (W P) s <> crc_result cc (W P) s'.
Proof.
  intros HP HO HC F F' E E' L LW D.
  destruct (digest_range cc P it os HP HC F) as (s & E1 & R1).
  destruct (digest_range cc P it' os' HP HC F') as (s' & E2 & R2).
  exists s, s'. split; [exact E1|]. split; [exact E2|]. rewrite R1, R2.
  refine (burst_octets P HP _ os os' before bst bst' after E E' L LW D).
  now rewrite N.bit0_odd.
Qed.
