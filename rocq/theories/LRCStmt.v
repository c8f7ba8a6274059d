(** * Reinforced Concrete: the statements of PRC.v *)
From Coq Require Import ZArith Arith List Bool Lia Ring ZifyBool ZifyNat Znumtheory.
From Verif Require Import SpecPoseidon SpecRC MRC LPoseidonBij LFermat LPrimes LZp LPoseidonInst LRC.
Import ListNotations.
Ltac Zify.zify_post_hook ::= Z.div_mod_to_equations.
Local Open Scope Z_scope.

Notation r := bls12_381_r.
Notation F := Fr.
Notation int := of_Z.
Notation data := to_Z.
Lemma r1 : 1 < r. Proof. reflexivity. Qed.
Lemma r0 : 0 < r. Proof. reflexivity. Qed.
Lemma int_zero : int 0 = zero. Proof. reflexivity. Qed.
Lemma int_one : int 1 = one. Proof. reflexivity. Qed.
Lemma int_add a b : int (a + b) = add (int a) (int b). Proof. apply to_zp_add. Qed.
Lemma int_mul a b : int (a * b) = mul (int a) (int b). Proof. apply to_zp_mul. Qed.
Lemma int_sub a b : int (a - b) = sub (int a) (int b). Proof. apply to_zp_sub. Qed.
Lemma int_data x : int (data x) = x. Proof. apply to_zp_val. Qed.
Lemma data_int z : data (int z) = z mod r. Proof. reflexivity. Qed.
Lemma FR : is_ring F. Proof. exact (zp_ring r). Qed.
Lemma ring_F : ring_theory (@zero F) one add mul sub opp eq. Proof. exact FR. Qed.
Add Ring Fring : ring_F.
Lemma int_eq a b : a mod r = b mod r -> int a = int b. Proof. apply to_zp_mod. Qed.
Lemma data_inj x y : data x = data y -> x = y. Proof. apply zp_eq. Qed.

(** ** Digits *)
Definition low : list Z := rev radices.
Lemma bucket_low : rev (bucket int) = map int low.
Proof. unfold bucket, low, radices. rewrite <- map_rev. reflexivity. Qed.
Lemma low_fits : fits r 1 low = true. Proof. reflexivity. Qed.
Lemma low_pos : Forall (fun b => 0 < b) low. Proof. repeat constructor. Qed.
Lemma low_product : r < product low. Proof. reflexivity. Qed.
Lemma range x : 0 <= data x < r. Proof. exact (val_range r r0 x). Qed.
Section Inv.
Context (inversed : F -> F) (I : inverts inversed).
Lemma decompose_eq e : decompose int data inversed e = map int (rev (mixed low (data e))).
Proof.
  unfold decompose. rewrite bucket_low. rewrite map_rev. f_equal.
  pose proof (decompose_loop_spec FR int data inversed r r1 int_zero int_add int_mul int_sub data_int I low (data e) 1 (range e) ltac:(lia) low_fits) as H.
  rewrite Z.mod_1_r, Z.div_1_r, int_data in H. exact H.
Qed.
Lemma compose_eq ds : length ds = length radices -> compose int (map int ds) = int (digits_value radices ds).
Proof.
  intros L. unfold compose. rewrite bucket_low, <- map_rev.
  rewrite (compose_loop_spec int data r int_add int_mul int_sub data_int low (rev ds) 0 1). f_equal.
  rewrite <- digits_value_rev by (unfold low; rewrite !rev_length; auto). unfold low. rewrite !rev_involutive. lia.
Qed.
Lemma mixed_length bs : forall e, length (mixed bs e) = length bs.
Proof. induction bs as [|b bs IH]; intros e; cbn [mixed length]; auto. Qed.
Lemma Forall2_length {A B} (P : A -> B -> Prop) l m : Forall2 P l m -> length l = length m.
Proof. induction 1; cbn [length]; auto. Qed.
Lemma Forall2_rev {A B} (P : A -> B -> Prop) l m : Forall2 P l m -> Forall2 P (rev l) (rev m).
Proof. induction 1; cbn [rev]; [constructor|]. apply Forall2_app; auto. Qed.
Lemma digits_ok e : let ds := rev (mixed low (data e)) in are_digits radices ds /\ digits_value radices ds = data e /\ length ds = length radices.
Proof.
  cbv zeta. pose proof (range e) as H. split; [|split].
  - unfold are_digits. change radices with (rev low). apply Forall2_rev. apply mixed_range, low_pos.
  - change radices with (rev low). rewrite digits_value_rev by (now rewrite mixed_length). apply mixed_value; [apply low_pos|]. pose proof low_product. lia.
  - now rewrite rev_length, mixed_length.
Qed.
Theorem decompose_digits e : exists ds, decompose int data inversed e = map int ds /\ are_digits radices ds /\ digits_value radices ds = data e.
Proof. exists (rev (mixed low (data e))). split; [apply decompose_eq|]. split; apply digits_ok. Qed.
Theorem compose_decompose e : compose int (decompose int data inversed e) = e.
Proof. rewrite decompose_eq. destruct (digits_ok e) as (_ & V & L). rewrite compose_eq by exact L. rewrite V. apply int_data. Qed.
Lemma decompose_unique e ds : are_digits radices ds -> digits_value radices ds = data e -> decompose int data inversed e = map int ds.
Proof.
  intros D V. rewrite decompose_eq. f_equal.
  assert (G : forall bs xs, Forall2 (fun s d => 0 <= d < s) bs xs -> mixed bs (low_value bs xs) = xs).
  { induction 1 as [|b x bs xs Hx H IH]; [reflexivity|]. cbn [low_value mixed].
    f_equal; [|rewrite <- IH at 2; f_equal]; [rewrite Z.add_comm, Z.mul_comm, Z_mod_plus_full || idtac|].
    - symmetry. apply (Z.mod_unique _ _ (low_value bs xs)); lia.
    - symmetry. apply (Z.div_unique _ _ _ x); lia. }
  rewrite <- V. assert (D' : Forall2 (fun s d => 0 <= d < s) low (rev ds)) by (apply Forall2_rev; exact D).
  replace (digits_value radices ds) with (low_value low (rev ds)).
  - rewrite (G low (rev ds) D'). apply rev_involutive.
  - rewrite <- digits_value_rev by (apply (Forall2_length _ _ _ D')). unfold low. now rewrite !rev_involutive.
Qed.

(** ** Bars *)
Definition digit_map (x : Z) : Z := if x <? 659 then if x =? 0 then 0 else data (inversed (int x)) else x.
Lemma small x : 0 <= x < r -> data (int x) = x. Proof. intros H. rewrite data_int. now apply Z.mod_small. Qed.
Lemma SBox_digit x : 0 <= x < 1000 -> SBox int data inversed (int x) = int (digit_map x).
Proof.
  intros H. assert (r > 1000) by reflexivity. unfold SBox, f, digit_map, p_min. rewrite !small by lia. destruct (x <? 659); [|reflexivity].
  destruct (x =? 0); [reflexivity|]. symmetry. apply int_data.
Qed.
Lemma digits_small ds : are_digits radices ds -> Forall (fun x => 0 <= x < 1000) ds.
Proof.
  intros D. assert (B : Forall (fun s => s <= 1000) radices) by (repeat constructor; discriminate). unfold are_digits in D.
  induction D as [|s x ss xs Hx D IH]; [constructor|]. inversion B; subst. constructor; [lia|auto].
Qed.
Theorem bars_one e ds : are_digits radices ds -> digits_value radices ds = data e ->
  compose int (map (SBox int data inversed) (decompose int data inversed e)) = int (digits_value radices (map digit_map ds)).
Proof.
  intros D V. rewrite (decompose_unique e ds D V). rewrite map_map. rewrite (map_ext_Forall _ (fun x => int (digit_map x))).
  - rewrite <- (map_map digit_map int). apply compose_eq. rewrite map_length. symmetry. apply (Forall2_length _ _ _ D).
  - eapply Forall_impl; [|apply digits_small, D]. intros x Hx. now apply SBox_digit.
Qed.
Theorem bars_any A : exists Ds, Forall2 (fun e ds => are_digits radices ds /\ digits_value radices ds = data e) A Ds /\
  bars int data inversed A = map (fun ds => int (digits_value radices (map digit_map ds))) Ds.
Proof.
  exists (map (fun e => rev (mixed low (data e))) A). split.
  - induction A as [|e A IH]; constructor; auto. split; apply digits_ok.
  - unfold bars. rewrite map_map. apply map_ext. intros e. apply bars_one; apply digits_ok.
Qed.

(** ** The collision *)
Definition z25 (a c : Z) : list Z := repeat 0 25 ++ [a; c].
Lemma z25_digits a c : 0 <= a < 703 -> 0 <= c < 679 -> are_digits radices (z25 a c).
Proof.
  intros Ha Hc. unfold are_digits, z25, radices. cbn [repeat app]. repeat (constructor; [lia|]). constructor.
Qed.
Lemma z25_value a c : digits_value radices (z25 a c) = 679 * a + c.
Proof. unfold digits_value, z25, radices. cbn [repeat app combine fold_left fst snd]. lia. Qed.
Lemma inverse_of x y : x * y mod r = 1 -> inversed (int x) = int y.
Proof. intros E. apply (inv_unique FR int data inversed r r1 int_zero int_one int_add int_mul int_sub int_data data_int I). rewrite <- int_mul, <- int_one. apply int_eq. rewrite E. reflexivity. Qed.
Lemma bars_z25 a c a' c' : 0 < a < 659 -> 0 < c < 659 -> a * a' mod r = 1 -> c * c' mod r = 1 ->
  compose int (map (SBox int data inversed) (decompose int data inversed (int (679 * a + c)))) = int (679 * a' + c').
Proof.
  intros Ha Hc Ea Ec. rewrite (bars_one _ (z25 a c)).
  - replace (map digit_map (z25 a c)) with (z25 (digit_map a) (digit_map c)) by (unfold z25; rewrite map_app; reflexivity).
    rewrite z25_value. unfold digit_map. replace (a <? 659) with true by lia. replace (c <? 659) with true by lia.
    replace (a =? 0) with false by lia. replace (c =? 0) with false by lia.
    rewrite int_add, int_mul, !int_data, (inverse_of a a' Ea), (inverse_of c c' Ec), <- int_mul, <- int_add. reflexivity.
  - apply z25_digits; lia.
  - rewrite z25_value. symmetry. apply small. assert (r > 1000000) by reflexivity. lia.
Qed.

Definition i65 : Z := 0x705c7ebaf1323e59abbdf8c4d622c58f0265190eb919faa4723723713f03f040.
Definition i3 : Z := 0x4d491a377113a8daccd13ab0066be558e27e6d5755543d54aaaaaaaa00000001.
Definition i63 : Z := 0x3ae25d1e0d02c9cb46b7cb30c7f0aebda060534ebaead96514514513cf3cf3d.
Definition i585 : Z := 0x195d9273584ff86751a9c1dddff966d797caf8903102b44b0cb0cb0c78c78c79.
Lemma bars_digit a c a' c' e : 0 < a < 659 -> 0 < c < 659 -> a * a' mod r = 1 -> c * c' mod r = 1 -> e = 679 * a + c ->
  compose int (map (SBox int data inversed) (decompose int data inversed (int e))) = int (679 * a' + c').
Proof. intros Ha Hc Ea Ec ->. now apply bars_z25. Qed.
Lemma small_range x : (0 <? x) && (x <? 659) = true -> 0 < x < 659. Proof. lia. Qed.
Lemma collide : compose int (map (SBox int data inversed) (decompose int data inversed (int 44138))) =
  compose int (map (SBox int data inversed) (decompose int data inversed (int 43362))).
Proof.
  etransitivity; [apply (bars_digit 65 3 i65 i3 44138)|symmetry; etransitivity; [apply (bars_digit 63 585 i63 i585 43362)|apply int_eq; vm_compute; reflexivity]];
    try (apply small_range; reflexivity); vm_compute; reflexivity.
Qed.
Theorem bars_collision x y : bars int data inversed [int 44138; x; y] = bars int data inversed [int 43362; x; y].
Proof. unfold bars. cbn [map]. rewrite collide. reflexivity. Qed.
Theorem sbox_leaves : exists d : F, data d < 659 /\ Forall (fun s => 0 <= data d < s) radices /\
  Forall (fun s => s <= data (SBox int data inversed d)) radices.
Proof.
  exists (int 2). split; [reflexivity|]. split; [repeat constructor; discriminate|].
  replace (SBox int data inversed (int 2)) with (int 0x39f6d3a994cebea4199cec0404d0ec02a9ded2017fff2dff7fffffff80000001).
  - rewrite small by (split; [discriminate|reflexivity]). repeat constructor; discriminate.
  - unfold SBox, f. change (data (int 2) <? data (p_min int)) with true. change (data (int 2) =? 0) with false. cbv iota.
    symmetry. apply inverse_of. reflexivity.
Qed.
End Inv.

(** ** The other layers *)
Definition pr : prime r := prime_bls12_381_r.
Lemma val_nonzero (x : F) : x <> zero -> ~ (r | data x).
Proof.
  intros H D. apply H. apply data_inj. pose proof (range x) as R. change (data zero) with 0. apply Z.mod_divide in D; [|pose proof r0; lia].
  rewrite Z.mod_small in D by lia. exact D.
Qed.
Definition inverse_fn (x : F) : F := int (data x ^ (r - 2)).
Theorem inverse_fn_ok : inverts inverse_fn.
Proof.
  intros x H. unfold inverse_fn. rewrite <- (int_data x) at 1. rewrite <- int_mul, <- int_one. apply int_eq. rewrite (Z.mod_small 1) by (pose proof r1; lia).
  rewrite <- Z.pow_succ_r by discriminate. apply (fermat_unit r (data x) pr). now apply val_nonzero.
Qed.
Lemma euler : powz (-7) r ((r - 1) / 2) = r - 1.
Proof. vm_compute. reflexivity. Qed.
Lemma no_root (y : Z) : (y * y + 7) mod r <> 0.
Proof.
  intros H. assert (E : (y * y) mod r = (-7) mod r).
  { replace (y * y) with (-7 + (y * y + 7)) by ring. rewrite Z.add_mod, H, Z.add_0_r by discriminate. now rewrite Z.mod_mod by discriminate. }
  assert (N : ~ (r | y)).
  { intros [k ->]. rewrite <- Z.mul_assoc, (Z.mul_comm k), <- Z.mul_assoc, Z.mul_comm, Z.mod_mul in E by discriminate. discriminate E. }
  pose proof (fermat_unit r y pr N) as P.
  assert (Q : y ^ (r - 1) mod r = r - 1).
  { replace (r - 1) with (2 * ((r - 1) / 2)) at 1 by reflexivity. rewrite Z.pow_mul_r by discriminate.
    rewrite <- pow_mod by reflexivity. replace (y ^ 2) with (y * y) by ring. rewrite E. rewrite pow_mod by reflexivity.
    rewrite <- powz_ok by discriminate. apply euler. }
  rewrite P in Q. discriminate Q.
Qed.
Lemma quadratic_1 (x : F) : add (add (mul x x) x) (int 2) <> zero.
Proof.
  intros H. apply (no_root (2 * data x + 1)). apply (f_equal data) in H. change (data zero) with 0 in H.
  rewrite <- (int_data x), <- int_mul, <- !int_add, data_int in H.
  replace ((2 * data x + 1) * (2 * data x + 1) + 7) with (4 * (data x * data x + data x + 2)) by ring.
  rewrite Z.mul_mod, H, Z.mul_0_r by discriminate. reflexivity.
Qed.
Lemma quadratic_2 (x : F) : add (add (mul x x) (mul (int 3) x)) (int 4) <> zero.
Proof.
  intros H. apply (no_root (2 * data x + 3)). apply (f_equal data) in H. change (data zero) with 0 in H.
  rewrite <- (int_data x), <- !int_mul, <- !int_add, data_int in H.
  replace ((2 * data x + 3) * (2 * data x + 3) + 7) with (4 * (data x * data x + 3 * data x + 4)) by ring.
  rewrite Z.mul_mod, H, Z.mul_0_r by discriminate. reflexivity.
Qed.
Definition quarter : F := int ((3 * r + 1) / 4).
Lemma quarter_ok : mul (int 4) quarter = one.
Proof. unfold quarter. rewrite <- int_mul, <- int_one. apply int_eq. reflexivity. Qed.
Definition fifth_root (x : F) : F := int (data x ^ ((1 + exponent r 5 * (r - 1)) / 5)).
Lemma fifth_root_ok : @sbox_inverse F 5 fifth_root.
Proof. apply (zp_sbox_inverse r r0 5 _ (exponent r 5) pr); vm_compute; [reflexivity|discriminate|reflexivity]. Qed.

Theorem bricks_is_spec A : length A = 3%nat -> bricks int A = bricks_of 5 (int 1) (int 2) (int 3) (int 4) A.
Proof. intros H. destruct A as [|x [|y [|z [|]]]]; try discriminate H. reflexivity. Qed.
Theorem bricks_bijective : bijection_of (fun A => length A = 3%nat) (bricks int).
Proof. apply (bricks_bijection FR int inverse_fn int_one fifth_root fifth_root_ok inverse_fn_ok quadratic_1 quadratic_2). Qed.
Theorem concrete_bijective rc i : bijection_of (fun A => length A = 3%nat) (fun A => concrete int rc A i).
Proof. apply (concrete_bijection FR int int_one int_add rc i quarter quarter_ok). Qed.
Definition code_matrix : list (list F) := [[int 2; int 1; int 1]; [int 1; int 1; int 2]; [int 1; int 2; int 1]].
Theorem concrete_is_spec rc A i : length A = 3%nat -> (3 * i + 3 <= length rc)%nat ->
  concrete int rc A i = concrete_of code_matrix (firstn 3 (skipn (3 * i) rc)) A.
Proof.
  intros H L. destruct A as [|x [|y [|z [|]]]]; try discriminate H.
  assert (E : firstn 3 (skipn (3 * i) rc) = map (fun k => nth (i * 3 + k) rc zero) [0; 1; 2]%nat).
  { assert (G : forall n (l : list F), (n + 3 <= length l)%nat -> firstn 3 (skipn n l) = map (fun k => nth (n + k) l zero) [0; 1; 2]%nat).
    { induction n as [|n IH]; intros l Hl.
      - destruct l as [|a [|b [|c l]]]; cbn [length] in Hl; try lia. reflexivity.
      - destruct l as [|a l]; cbn [length] in Hl; [lia|]. cbn [skipn]. rewrite IH by lia. reflexivity. }
    rewrite (Nat.mul_comm i 3). apply G. lia. }
  rewrite E. cbn [map]. rewrite Nat.add_0_r. rewrite (concrete_value FR int int_one). unfold concrete_of, code_matrix, mat, dot, vadd.
  cbn [map combine fst snd]. unfold sum. cbn [fold_right]. rewrite int_one. generalize (nth (i * 3) rc zero), (nth (i * 3 + 1) rc zero), (nth (i * 3 + 2) rc zero). intros a b c.
  f_equal; [ring|]. f_equal; [ring|]. f_equal. ring.
Qed.
Lemma concrete_length rc A i : length (concrete int rc A i) = 3%nat.
Proof. unfold concrete. cbv zeta. now rewrite map_length. Qed.
Theorem permute_is_spec inversed rc A : length rc = 24%nat -> length A = 3%nat ->
  permute int data inversed rc A =
  rc_permutation code_matrix (bricks_of 5 (int 1) (int 2) (int 3) (int 4)) (bars int data inversed) rc A.
Proof.
  intros L H. unfold permute, rc_permutation. cbv zeta. unfold rounds.
  assert (LB : forall X, length X = 3%nat -> length (bars int data inversed X) = 3%nat) by (intros X; unfold bars; now rewrite map_length).
  assert (R : forall l X, (forall i, In i l -> (i < 8)%nat) -> length X = 3%nat ->
    fold_left (bricks_concrete int rc) l X = fold_left (fun s i => concrete_of code_matrix (firstn 3 (skipn (3 * i) rc)) (bricks_of 5 (int 1) (int 2) (int 3) (int 4) s)) l X
    /\ length (fold_left (bricks_concrete int rc) l X) = 3%nat).
  { induction l as [|i l IH]; intros X Hi HX; [split; [reflexivity|exact HX]|]. cbn [fold_left].
    replace (concrete_of code_matrix (firstn 3 (skipn (3 * i) rc)) (bricks_of 5 (int 1) (int 2) (int 3) (int 4) X)) with (bricks_concrete int rc X i).
    - apply IH; [intros j Hj; apply Hi; now right|apply concrete_length].
    - unfold bricks_concrete. rewrite <- bricks_is_spec by exact HX. apply concrete_is_spec; [reflexivity|]. specialize (Hi i (or_introl eq_refl)). lia. }
  change (seq 1 3) with [1; 2; 3]%nat. change (seq (3 + 2) 3) with [5; 6; 7]%nat. change (3 + 1)%nat with 4%nat.
  rewrite <- (concrete_is_spec rc A 0 H ltac:(lia)). set (X := concrete int rc A 0).
  destruct (R [1; 2; 3]%nat X) as [R1 R2]; [cbn [In]; lia|apply concrete_length|]. rewrite <- R1.
  set (Y := bars int data inversed (fold_left (bricks_concrete int rc) [1; 2; 3]%nat X)) in *.
  assert (LY : length Y = 3%nat) by (apply LB; exact R2). rewrite <- (concrete_is_spec rc Y 4 LY ltac:(lia)).
  apply R; [cbn [In]; lia|apply concrete_length].
Qed.
Theorem concrete_not_published rc i : (3 * i + 3 <= length rc)%nat ->
  exists A, length A = 3%nat /\ concrete int rc A i <> concrete_of circ_2_1_1 (firstn 3 (skipn (3 * i) rc)) A.
Proof.
  intros L. exists [zero; one; zero]. split; [reflexivity|]. rewrite concrete_is_spec by (exact L || reflexivity).
  assert (LC : length (firstn 3 (skipn (3 * i) rc)) = 3%nat) by (rewrite firstn_length, skipn_length; lia).
  destruct (firstn 3 (skipn (3 * i) rc)) as [|a [|b [|c [|]]]]; try discriminate LC. clear LC L. intros E.
  apply (f_equal (fun l => nth 1 l zero)) in E. unfold concrete_of, mat, vadd in E. cbn [map combine fst snd nth code_matrix circ_2_1_1] in E.
  match type of E with add ?x b = add ?y b => assert (E' : x = y) by (transitivity (sub (add x b) b); [ring|rewrite E; ring]) end.
  clear E. apply (f_equal data) in E'. vm_compute in E'. discriminate E'.
Qed.
Lemma int_distinct x y : [int 44138; x; y] <> [int 43362; x; y].
Proof. intros E. apply (f_equal (fun l => data (nth 0 l zero))) in E. discriminate E. Qed.
Theorem permute_collides inversed rc : inverts inversed ->
  exists A B, length A = 3%nat /\ length B = 3%nat /\ A <> B /\ permute int data inversed rc A = permute int data inversed rc B.
Proof.
  intros I. apply (permute_collision FR int data inversed int_one int_add rc [int 44138; zero; zero] [int 43362; zero; zero] quarter fifth_root quarter_ok
    fifth_root_ok I quadratic_1 quadratic_2); [reflexivity|reflexivity|apply int_distinct|now apply bars_collision].
Qed.
