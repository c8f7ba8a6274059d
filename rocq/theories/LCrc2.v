(** Two-bit errors and the linearity of CRCs: proofs. *)
From Coq Require Import NArith Arith List Bool Lia ZifyBool ZifyNat ZifyN ZArith Znumtheory.
From Verif Require Import SpecStream SpecCrc MCrc LStream SpecWords LCrc.
From Verif Require LPrimes LMDStmt.
Import ListNotations.
Local Open Scope N_scope.

Lemma some_eq {A} (x y : A) : Some x = Some y -> x = y.
Proof. now intros [=]. Qed.
Lemma combine_app_eq {A B} (a : list A) (b : list B) : forall a1 b1, length a1 = length b1 ->
  combine (a1 ++ a) (b1 ++ b) = combine a1 b1 ++ combine a b.
Proof. induction a1 as [|x a1 IH]; intros [|y b1] L; try discriminate L; [reflexivity|]. cbn. now rewrite IH by now injection L. Qed.

(** ** Periods of a function *)
Section Period.
Context {A : Type} (f : A -> A) (x : A).
Definition period (k : N) : Prop := N.iter k f x = x.
Lemma period_0 : period 0.
Proof. reflexivity. Qed.
Lemma iter_plus a b : N.iter (a + b) f x = N.iter a f (N.iter b f x).
Proof. apply N.iter_add. Qed.
Lemma period_add a b : period a -> period b -> period (a + b).
Proof. unfold period. intros Ha Hb. now rewrite iter_plus, Hb, Ha. Qed.
Lemma period_mul a b : period a -> period (b * a).
Proof.
  intros Ha. induction b as [|b IH] using N.peano_ind; [apply period_0|].
  rewrite N.mul_succ_l. now apply period_add.
Qed.
Lemma period_sub a b : period b -> period (a + b) -> period a.
Proof. unfold period. intros Hb. now rewrite iter_plus, Hb. Qed.
Lemma period_mod a b : period a -> period b -> period (a mod b).
Proof.
  intros Ha Hb. destruct (N.eq_dec b 0) as [->|Hz]; [now destruct a|].
  apply (period_sub _ (a / b * b)); [now apply period_mul|].
  replace (a mod b + a / b * b) with a; [exact Ha|]. rewrite (N.div_mod a b Hz) at 1. lia.
Qed.
Lemma period_gcd b : forall a, period a -> period b -> period (N.gcd a b).
Proof.
  induction b as [b IH] using (well_founded_induction N.lt_wf_0). intros a Ha Hb.
  destruct (N.eq_dec b 0) as [->|Hz]; [now rewrite N.gcd_0_r|].
  rewrite N.gcd_comm, <- N.gcd_mod by exact Hz. rewrite N.gcd_comm.
  apply IH; [now apply N.mod_lt|exact Hb|now apply period_mod].
Qed.
End Period.

(** ** Divisors of 2^32 - 1 *)
Lemma prime_3 : prime 3. Proof. apply LPrimes.small_prime. vm_compute. reflexivity. Qed.
Lemma prime_5 : prime 5. Proof. apply LPrimes.small_prime. vm_compute. reflexivity. Qed.
Lemma prime_17 : prime 17. Proof. apply LPrimes.small_prime. vm_compute. reflexivity. Qed.
Lemma prime_257 : prime 257. Proof. apply LPrimes.small_prime. vm_compute. reflexivity. Qed.
Lemma prime_65537 : prime 65537.
Proof.
  apply (LPrimes.no_divisor_ok 300 2); [lia|lia| |vm_compute; reflexivity]. intros m Hm. lia.
Qed.
Lemma prime_factor q : (0 < q)%Z -> (q | 4294967295)%Z -> q = 1%Z \/
  exists p, In p [3; 5; 17; 257; 65537]%Z /\ (p | q)%Z.
Proof.
  intros Hq D.
  assert (G : forall p r, prime p -> (q | p * r)%Z -> (p | q)%Z \/ (q | r)%Z).
  { intros p r Pp Dp. destruct (Zdivide_dec p q) as [Y|N]; [now left|right].
    apply (Gauss q p r Dp). apply rel_prime_sym. now apply prime_rel_prime. }
  change 4294967295%Z with (3 * (5 * (17 * (257 * (65537 * 1)))))%Z in D.
  destruct (G _ _ prime_3 D) as [Y|D1]; [right; exists 3%Z; split; [now left|exact Y]|].
  destruct (G _ _ prime_5 D1) as [Y|D2]; [right; exists 5%Z; split; [now right; left|exact Y]|].
  destruct (G _ _ prime_17 D2) as [Y|D3]; [right; exists 17%Z; split; [now right; right; left|exact Y]|].
  destruct (G _ _ prime_257 D3) as [Y|D4]; [right; exists 257%Z; split; [now right; right; right; left|exact Y]|].
  destruct (G _ _ prime_65537 D4) as [Y|D5]; [right; exists 65537%Z; split; [now right; right; right; right; left|exact Y]|].
  left. apply Zdivide_1 in D5. lia.
Qed.
Lemma order_of {A} (f : A -> A) (x : A) :
  period f x 4294967295 -> Forall (fun p => ~ period f x (4294967295 / p)) [3; 5; 17; 257; 65537] ->
  forall k, period f x k <-> exists m, k = m * 4294967295.
Proof.
  intros H F k. split; [|intros (m & ->); now apply period_mul].
  intros Hk. pose proof (period_gcd f x 4294967295 k Hk H) as Hg.
  destruct (N.gcd_divide_r k 4294967295) as [q Eq].
  destruct (N.gcd_divide_l k 4294967295) as [m Em].
  set (g := N.gcd k 4294967295) in *. clearbody g.
  destruct (prime_factor (Z.of_N q)) as [E|(p & Ip & [u Eu])].
  - lia.
  - exists (Z.of_N g). rewrite Z.mul_comm. rewrite <- N2Z.inj_mul, <- Eq. reflexivity.
  - exists m. assert (E1 : q = 1) by lia. rewrite E1, N.mul_1_l in Eq. now rewrite Em, Eq.
  - exfalso. assert (Hp : (0 < p)%Z) by (cbn in Ip; intuition subst; lia).
    rewrite Forall_forall in F. apply (F (Z.to_N p)).
    { clear - Ip. cbn in Ip. cbn. intuition (subst p; auto 7). }
    assert (Hu : (0 <= u)%Z) by nia.
    replace (4294967295 / Z.to_N p) with (Z.to_N u * g); [now apply period_mul|].
    rewrite Eq. replace q with (Z.to_N u * Z.to_N p) by lia.
    replace (Z.to_N u * Z.to_N p * g) with (Z.to_N u * g * Z.to_N p) by lia.
    rewrite N.div_mul; [reflexivity|lia].
Qed.

(** ** Powers of the division step *)
Section Powers.
Context (P : crc_parameters).
Notation T := (LCrc.T P).

Definition horner (bs : list bool) (b : N) : N :=
  fold_left (fun acc (x : bool) => N.lxor (T acc) (if x then b else 0)) bs 0.
Lemma horner_snoc bs (x : bool) b : horner (bs ++ [x]) b = N.lxor (T (horner bs b)) (if x then b else 0).
Proof. unfold horner. now rewrite fold_left_app. Qed.
Lemma iter_comm k (a : N) : N.iter k T (T a) = T (N.iter k T a).
Proof. now rewrite <- N.iter_swap. Qed.
Lemma iter_lxor k (a b : N) : N.iter k T (N.lxor a b) = N.lxor (N.iter k T a) (N.iter k T b).
Proof.
  induction k as [|k IH] using N.peano_ind; [reflexivity|]. rewrite !N.iter_succ, IH. apply T_lxor.
Qed.
Lemma iter_0 k : N.iter k T 0 = 0.
Proof. induction k as [|k IH] using N.peano_ind; [reflexivity|]. rewrite N.iter_succ, IH. apply T_0. Qed.
Lemma iter_horner k bs b : N.iter k T (horner bs b) = horner bs (N.iter k T b).
Proof.
  induction bs as [|x bs IH] using rev_ind; [apply iter_0|].
  rewrite !horner_snoc, iter_lxor, iter_comm, IH. f_equal. destruct x; [reflexivity|apply iter_0].
Qed.

Definition bits_of (r : N) : list bool := map (fun i => N.testbit r (N.of_nat i)) (rev (seq 0 (W P))).
Fixpoint power (p : positive) : option N :=
  let square r := let bs := bits_of r in if horner bs 1 =? r then Some (horner bs r) else None in
  match p with
  | xH => Some (T 1)
  | xO p' => match power p' with Some r => square r | None => None end
  | xI p' => match power p' with Some r => match square r with Some s => Some (T s) | None => None end | None => None end
  end.
Lemma square_ok r k : N.iter k T 1 = r -> horner (bits_of r) 1 = r -> N.iter (2 * k) T 1 = horner (bits_of r) r.
Proof.
  intros H E. replace (2 * k) with (k + k) by lia. rewrite N.iter_add, H. rewrite <- E at 1. rewrite iter_horner, H. reflexivity.
Qed.
Lemma power_ok p : forall r, power p = Some r -> N.iter (Npos p) T 1 = r.
Proof.
  induction p as [p IH|p IH|]; intros r H; cbn [power] in H.
  - destruct (power p) as [s|]; [|discriminate]. specialize (IH s eq_refl).
    destruct (N.eqb_spec (horner (bits_of s) 1) s) as [E|]; [|discriminate].
    apply some_eq in H. rewrite <- H, <- (square_ok s (Npos p) IH E). change (Npos (xI p)) with (N.succ (2 * Npos p)).
    apply N.iter_succ.
  - destruct (power p) as [s|]; [|discriminate]. specialize (IH s eq_refl).
    destruct (N.eqb_spec (horner (bits_of s) 1) s) as [E|]; [|discriminate].
    apply some_eq in H. rewrite <- H. exact (square_ok s (Npos p) IH E).
  - apply some_eq in H. exact H.
Qed.
End Powers.

Lemma png_period k : period (LCrc.T CRC32_PNG) 1 k <-> exists m, k = m * 4294967295.
Proof.
  apply order_of.
  - apply power_ok. vm_compute. reflexivity.
  - repeat (apply Forall_cons; [|]); [..|apply Forall_nil]; unfold period;
    (match goal with |- ~ N.iter ?n _ _ = _ => let m := eval vm_compute in n in change n with m;
       match m with Npos ?p => let r := eval vm_compute in (power CRC32_PNG p) in
         match r with Some ?v => rewrite (power_ok CRC32_PNG p v); [discriminate|vm_compute; reflexivity] end end end).
Qed.

(** ** Two-bit errors *)
Section Two.
Context (P : crc_parameters) (HP : crc_ok P) (odd : N.testbit (poly P) 0 = true).
Notation T := (LCrc.T P).
Notation top := (LCrc.top P).

Lemma zeros_iter m : forall r, fold_left (divide_bit P) (repeat false m) r = N.iter (N.of_nat m) T r.
Proof.
  induction m as [|m IH]; intros r; [reflexivity|]. cbn [repeat fold_left]. rewrite IH.
  replace (N.of_nat (S m)) with (N.succ (N.of_nat m)) by lia. rewrite N.iter_succ_r. reflexivity.
Qed.
Lemma xor_self bs : map (fun p => xorb (fst p) (snd p)) (combine bs bs) = repeat false (length bs).
Proof. induction bs as [|b bs IH]; [reflexivity|]. cbn. now rewrite IH, xorb_nilpotent. Qed.
Lemma iter_zero k r : fits (W P) r -> N.iter k T r = 0 -> r = 0.
Proof. rewrite N2Nat.inj_iter. apply (iter_T_zero P HP odd). Qed.
Lemma iter_inj k a b : fits (W P) a -> fits (W P) b -> N.iter k T a = N.iter k T b -> a = b.
Proof.
  intros Fa Fb E. apply N.lxor_eq_0_iff. apply (iter_zero k); [now apply LCrc.lxor_fits'|]. rewrite iter_lxor, E. apply N.lxor_nilpotent.
Qed.
Lemma top_fits : fits (W P) top.
Proof. unfold fits, LCrc.top. pose proof (n_pos P HP). apply N.pow_lt_mono_r; lia. Qed.
Lemma registers os os' : CRC P os = CRC P os' <->
  fold_left (divide_bit P) (message_bits P os) (init P) = fold_left (divide_bit P) (message_bits P os') (init P).
Proof.
  split; [|intros E; unfold CRC; now rewrite E]. intros C. unfold CRC in C.
  assert (X : forall a b c, N.lxor a c = N.lxor b c -> a = b).
  { intros a b c K. rewrite <- (N.lxor_0_r a), <- (N.lxor_0_r b), <- (N.lxor_nilpotent c), <- !N.lxor_assoc.
    now rewrite K. }
  apply X in C. destruct HP as (_ & _ & _ & Hi & _).
  destruct (reflect_rem P); [|exact C]. apply (reflect_inj P); auto; apply (register_fits P HP); auto.
Qed.
Lemma two_bits os os' pre b mid c post :
  message_bits P os = pre ++ b :: mid ++ c :: post -> message_bits P os' = pre ++ negb b :: mid ++ negb c :: post ->
  (CRC P os = CRC P os' <-> period T top (N.of_nat (S (length mid)))).
Proof.
  intros E E'. rewrite registers, <- N.lxor_eq_0_iff, E, E'.
  rewrite (difference P) by (rewrite !app_length; cbn [length]; now rewrite !app_length).
  rewrite combine_app_eq, map_app, xor_self by reflexivity. cbn [combine map fst snd].
  rewrite combine_app_eq, map_app, xor_self by reflexivity. cbn [combine map fst snd]. rewrite xor_self.
  replace (xorb b (negb b)) with true by now destruct b. replace (xorb c (negb c)) with true by now destruct c.
  rewrite N.lxor_nilpotent, fold_left_app, zeros_iter, iter_0. cbn [fold_left].
  rewrite fold_left_app, zeros_iter. cbn [fold_left]. rewrite zeros_iter, !(step_T P), N.lxor_0_l.
  change (T (N.lxor (N.iter (N.of_nat (length mid)) T (T top)) top)) with
    (N.iter 1 T (N.lxor (N.iter (N.of_nat (length mid)) T (T top)) top)).
  rewrite <- N.iter_add, <- N.iter_succ_r. unfold period.
  replace (N.of_nat (S (length mid))) with (N.succ (N.of_nat (length mid))) by lia.
  split; intros H.
  - apply N.lxor_eq_0_iff. revert H. apply iter_zero. apply LCrc.lxor_fits'; [|apply top_fits]. rewrite N.iter_succ. apply (T_fits P HP).
  - rewrite H, N.lxor_nilpotent. apply iter_0.
Qed.
End Two.

Lemma png_two_bits os os' pre b mid c post :
  message_bits CRC32_PNG os = pre ++ b :: mid ++ c :: post ->
  message_bits CRC32_PNG os' = pre ++ negb b :: mid ++ negb c :: post ->
  (CRC CRC32_PNG os = CRC CRC32_PNG os' <-> exists m, N.of_nat (S (length mid)) = m * (2 ^ 32 - 1)).
Proof.
  intros E E'. rewrite (two_bits CRC32_PNG png_ok eq_refl os os' pre b mid c post E E').
  rewrite <- (png_period (N.of_nat (S (length mid)))). unfold period.
  replace (LCrc.top CRC32_PNG) with (N.iter 31 (LCrc.T CRC32_PNG) 1) by (vm_compute; reflexivity).
  rewrite <- N.iter_add, N.add_comm, N.iter_add. split; intros H; [|now rewrite H].
  apply (iter_inj CRC32_PNG png_ok eq_refl 31); [| |exact H]; [|reflexivity].
  replace (N.of_nat (S (length mid))) with (N.succ (N.of_nat (length mid))) by lia. rewrite N.iter_succ. apply (T_fits _ png_ok).
Qed.

(** ** Digests *)
Lemma octets_value m : forall x, fits (8 * m) x -> le_value (octets_le m x) = x.
Proof.
  induction m as [|m IH]; intros x Fx.
  - unfold fits in Fx. cbn in *. lia.
  - cbn [octets_le le_value]. rewrite IH.
    + rewrite (N.div_mod x 256) at 3 by discriminate. lia.
    + unfold fits in *. apply N.div_lt_upper_bound; [discriminate|].
      change 256 with (2 ^ 8). rewrite <- N.pow_add_r. replace (8 + N.of_nat (8 * m)) with (N.of_nat (8 * S m)) by lia. exact Fx.
Qed.
Lemma png_two_bits_digests cc it it' os os' before b middle c after :
  computes cc CRC32_PNG -> Forall (fits 8) os -> Forall (fits 8) os' ->
  message_bits CRC32_PNG os = before ++ b :: middle ++ c :: after ->
  message_bits CRC32_PNG os' = before ++ negb b :: middle ++ negb c :: after ->
  exists s s', stream_range cc it (crc_init cc) os = Some s /\ stream_range cc it' (crc_init cc) os' = Some s' /\
    (crc_result cc 32 s = crc_result cc 32 s' <-> exists k, N.of_nat (S (length middle)) = k * (2 ^ 32 - 1)).
Proof.
  intros HC F F' E E'.
  destruct (digest_range cc CRC32_PNG it os png_ok HC F) as (s & E1 & R1).
  destruct (digest_range cc CRC32_PNG it' os' png_ok HC F') as (s' & E2 & R2).
  exists s, s'. split; [exact E1|]. split; [exact E2|].
  change 32%nat with (W CRC32_PNG). rewrite R1, R2. rewrite <- (png_two_bits os os' before b middle c after E E').
  split; intros H; [|now rewrite H]. apply (f_equal (@rev N)) in H. rewrite !rev_involutive in H.
  pose proof (crc_fits CRC32_PNG png_ok os) as F1. pose proof (crc_fits CRC32_PNG png_ok os') as F2.
  change (W CRC32_PNG) with (8 * (W CRC32_PNG / 8))%nat in F1, F2.
  rewrite <- (octets_value _ _ F1), <- (octets_value _ _ F2). now rewrite H.
Qed.

Section Affine.
Context (P : crc_parameters) (HP : crc_ok P).

Lemma octet_bits_xor a b : octet_msb_first (N.lxor a b) = map (fun p => xorb (fst p) (snd p)) (combine (octet_msb_first a) (octet_msb_first b)).
Proof. unfold octet_msb_first. cbn [map combine fst snd]. now rewrite !N.lxor_spec. Qed.
Definition octet_bits (o : N) : list bool := if reflect_in P then rev (octet_msb_first o) else octet_msb_first o.
Lemma octet_bits_lxor a b : octet_bits (N.lxor a b) = map (fun p => xorb (fst p) (snd p)) (combine (octet_bits a) (octet_bits b)).
Proof.
  unfold octet_bits. rewrite octet_bits_xor. destruct (reflect_in P); [|reflexivity]. unfold octet_msb_first. reflexivity.
Qed.
Lemma octet_bits_length o : length (octet_bits o) = 8%nat.
Proof. unfold octet_bits. destruct (reflect_in P); reflexivity. Qed.
Lemma bits_length os : length (message_bits P os) = (8 * length os)%nat.
Proof.
  induction os as [|o os IH]; [reflexivity|]. unfold message_bits in *. cbn [flat_map length]. rewrite app_length, IH.
  fold (octet_bits o). rewrite octet_bits_length. lia.
Qed.
Lemma lxor3_cancel a b c : N.lxor (N.lxor a (N.lxor b c)) a = N.lxor b c.
Proof. now rewrite N.lxor_comm, <- N.lxor_assoc, N.lxor_nilpotent, N.lxor_0_l. Qed.
Lemma bits_xor3 a : forall b c, length a = length b -> length a = length c ->
  map (fun p => xorb (fst p) (snd p)) (combine (message_bits P (xor3 a b c)) (message_bits P a)) =
  map (fun p => xorb (fst p) (snd p)) (combine (message_bits P b) (message_bits P c)).
Proof.
  induction a as [|x a IH]; intros [|y b] [|z c] Lb Lc; try discriminate; [reflexivity|].
  unfold xor3. cbn [combine map fst snd]. fold (xor3 a b c).
  unfold message_bits. cbn [flat_map].
  fold (octet_bits (N.lxor x (N.lxor y z))) (octet_bits x) (octet_bits y) (octet_bits z).
  fold (message_bits P (xor3 a b c)) (message_bits P a) (message_bits P b) (message_bits P c).
  rewrite !combine_app_eq, !map_app by now rewrite !octet_bits_length.
  rewrite (IH b c) by (cbn in Lb, Lc; lia). f_equal.
  rewrite <- !octet_bits_lxor. now rewrite lxor3_cancel.
Qed.
Lemma xor3_length a b c : length a = length b -> length a = length c -> length (xor3 a b c) = length a.
Proof. intros. unfold xor3. rewrite map_length, !combine_length. lia. Qed.
Definition reg (os : list N) : N := fold_left (divide_bit P) (message_bits P os) (init P).
Lemma reg_xor3 a b c : length a = length b -> length a = length c ->
  reg (xor3 a b c) = N.lxor (reg a) (N.lxor (reg b) (reg c)).
Proof.
  intros Lb Lc.
  assert (E : N.lxor (reg (xor3 a b c)) (reg a) = N.lxor (reg b) (reg c)).
  { unfold reg. rewrite !(difference P) by (rewrite !bits_length, ?xor3_length by assumption; lia).
    now rewrite bits_xor3, !N.lxor_nilpotent by assumption. }
  rewrite <- E. rewrite N.lxor_comm, N.lxor_assoc, N.lxor_nilpotent, N.lxor_0_r. reflexivity.
Qed.
Lemma reflect_lxor n a b : reflect n (N.lxor a b) = N.lxor (reflect n a) (reflect n b).
Proof.
  apply N.bits_inj; intro i. rewrite N.lxor_spec. destruct (N.lt_ge_cases i (N.of_nat n)) as [L|L].
  - replace i with (N.of_nat (N.to_nat i)) by lia. rewrite !(reflect_testbit P) by lia. apply N.lxor_spec.
  - assert (H : forall r, N.testbit (reflect n r) i = false); [|now rewrite !H].
    intros r. pose proof (reflect_fits n r) as F. unfold fits in F.
    destruct (N.eq_dec (reflect n r) 0) as [->|Hz]; [apply N.bits_0|]. apply N.bits_above_log2.
    apply (N.lt_le_trans _ (N.of_nat n)); [|exact L]. apply N.log2_lt_pow2; [now apply N.neq_0_lt_0|exact F].
Qed.
Lemma crc_xor3 a b c : length a = length b -> length a = length c ->
  CRC P (xor3 a b c) = N.lxor (CRC P a) (N.lxor (CRC P b) (CRC P c)).
Proof.
  intros Lb Lc. unfold CRC. fold (reg (xor3 a b c)) (reg a) (reg b) (reg c). rewrite reg_xor3 by assumption.
  assert (X : forall x y z f, N.lxor (N.lxor x (N.lxor y z)) f = N.lxor (N.lxor x f) (N.lxor (N.lxor y f) (N.lxor z f))).
  { intros. apply N.bits_inj; intro i. rewrite !N.lxor_spec. now destruct (N.testbit x i), (N.testbit y i), (N.testbit z i), (N.testbit f i). }
  destruct (reflect_rem P); rewrite <- X; [|reflexivity]. now rewrite !reflect_lxor.
Qed.
Lemma octets_xor3 m : forall x y z, octets_le m (N.lxor x (N.lxor y z)) = xor3 (octets_le m x) (octets_le m y) (octets_le m z).
Proof.
  induction m as [|m IH]; intros x y z; [reflexivity|]. cbn [octets_le]. unfold xor3. cbn [combine map fst snd].
  fold (xor3 (octets_le m (x / 256)) (octets_le m (y / 256)) (octets_le m (z / 256))). rewrite <- IH. f_equal.
  - apply N.bits_inj; intro i. change 256 with (2 ^ 8). rewrite !N.lxor_spec. destruct (N.lt_ge_cases i 8).
    + rewrite !N.mod_pow2_bits_low by assumption. now rewrite !N.lxor_spec.
    + rewrite !N.mod_pow2_bits_high by assumption. reflexivity.
  - f_equal. change 256 with (2 ^ 8). rewrite <- !N.shiftr_div_pow2. now rewrite !N.shiftr_lxor.
Qed.
Lemma rev_xor3 a : forall b c, length a = length b -> length a = length c -> rev (xor3 a b c) = xor3 (rev a) (rev b) (rev c).
Proof.
  induction a as [|x a IH]; intros [|y b] [|z c] Lb Lc; try discriminate; [reflexivity|].
  unfold xor3 at 1. cbn [combine map fst snd]. fold (xor3 a b c). cbn [rev].
  injection Lb as Lb. injection Lc as Lc. rewrite IH by assumption. unfold xor3.
  rewrite !combine_app_eq, map_app by (rewrite ?combine_length, ?rev_length; lia). reflexivity.
Qed.
End Affine.
Lemma affine cc P it a b c :
  crc_ok P -> computes cc P -> Forall (fits 8) a -> Forall (fits 8) b -> Forall (fits 8) c ->
  length a = length b -> length a = length c ->
  exists s sa sb sc, stream_range cc it (crc_init cc) (xor3 a b c) = Some s /\ stream_range cc it (crc_init cc) a = Some sa /\
    stream_range cc it (crc_init cc) b = Some sb /\ stream_range cc it (crc_init cc) c = Some sc /\
    crc_result cc (W P) s = xor3 (crc_result cc (W P) sa) (crc_result cc (W P) sb) (crc_result cc (W P) sc).
Proof.
  intros HP HC Fa Fb Fc Lb Lc.
  assert (F : Forall (fits 8) (xor3 a b c)).
  { unfold xor3. rewrite Forall_forall in *. intros x Hx. apply in_map_iff in Hx. destruct Hx as (((u, v), w) & <- & Hi).
    pose proof (in_combine_r _ _ _ _ Hi). apply in_combine_l in Hi. pose proof (in_combine_r _ _ _ _ Hi). apply in_combine_l in Hi.
    cbn [fst snd]. apply LCrc.lxor_fits'; [|apply LCrc.lxor_fits']; auto. }
  destruct (digest_range cc P it _ HP HC F) as (s & E & R). destruct (digest_range cc P it _ HP HC Fa) as (sa & Ea & Ra).
  destruct (digest_range cc P it _ HP HC Fb) as (sb & Eb & Rb). destruct (digest_range cc P it _ HP HC Fc) as (sc & Ec & Rc).
  exists s, sa, sb, sc. repeat (split; [assumption|]). rewrite R, Ra, Rb, Rc, crc_xor3, octets_xor3 by assumption.
  apply rev_xor3; now rewrite !LMDStmt.octets_le_length.
Qed.
