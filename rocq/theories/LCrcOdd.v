(** Odd numbers of flipped bits and CRCs: proofs. *)
From Coq Require Import NArith Arith List Bool Lia ZifyBool ZifyNat ZifyN ZArith.
From Verif Require Import SpecStream LStream SpecWords SpecCrc MCrc LCrc LCrc2 LCrcRes SpecCrcOdd LMDStmt.
Import ListNotations.
Local Open Scope N_scope.
Ltac Zify.zify_post_hook ::= Z.div_mod_to_equations.

(** The parity of a list of bits. *)
Definition par (bs : list bool) : bool := fold_right xorb false bs.
Lemma par_app a b : par (a ++ b) = xorb (par a) (par b).
Proof. induction a as [|x a IH]; [symmetry; apply xorb_false_l|]. unfold par in *. cbn [app fold_right]. now rewrite IH, xorb_assoc. Qed.
Lemma par_rev a : par (rev a) = par a.
Proof. induction a as [|x a IH]; [reflexivity|]. cbn [rev]. rewrite par_app, IH. unfold par. cbn [fold_right]. now rewrite xorb_false_r, xorb_comm. Qed.
Lemma filter_par {A} (f : A -> bool) l : Nat.odd (length (filter f l)) = par (map f l).
Proof.
  induction l as [|x l IH]; [reflexivity|]. cbn [filter map]. unfold par in *. cbn [fold_right]. rewrite <- IH.
  destruct (f x); [|now rewrite xorb_false_l]. cbn [length]. rewrite Nat.odd_succ, <- Nat.negb_odd. reflexivity.
Qed.
Lemma par_combine a : forall b, length a = length b ->
  par (map (fun p => xorb (fst p) (snd p)) (combine a b)) = xorb (par a) (par b).
Proof.
  induction a as [|x a IH]; intros [|y b] L; try discriminate L; [reflexivity|].
  cbn [combine map fst snd]. unfold par in *. cbn [fold_right]. rewrite IH by now injection L.
  now destruct x, y, (fold_right xorb false a), (fold_right xorb false b).
Qed.
Lemma msb_length os : length (flat_map octet_msb_first os) = (8 * length os)%nat.
Proof. induction os as [|o os IH]; [reflexivity|]. cbn [flat_map length]. rewrite app_length, IH. change (length (octet_msb_first o)) with 8%nat. lia. Qed.
Lemma flipped_par a b : length a = length b ->
  Nat.odd (flipped a b) = xorb (par (flat_map octet_msb_first a)) (par (flat_map octet_msb_first b)).
Proof. intros L. unfold flipped. rewrite filter_par. apply par_combine. rewrite !msb_length. now rewrite L. Qed.
Lemma message_par P os : par (message_bits P os) = par (flat_map octet_msb_first os).
Proof.
  induction os as [|o os IH]; [reflexivity|]. unfold message_bits in *. cbn [flat_map]. rewrite !par_app, IH.
  destruct (reflect_in P); [now rewrite par_rev|reflexivity].
Qed.

(** The parity of the low bits of a number. *)
Definition low (n : nat) (r : N) : list bool := map (fun i => N.testbit r (N.of_nat i)) (seq 0 n).
Lemma low_lxor n a b : par (low n (N.lxor a b)) = xorb (par (low n a)) (par (low n b)).
Proof.
  unfold low. induction (seq 0 n) as [|i l IH]; [reflexivity|]. unfold par in *. cbn [map fold_right]. rewrite IH, N.lxor_spec.
  now destruct (N.testbit a (N.of_nat i)), (N.testbit b (N.of_nat i)), (fold_right xorb false (map (fun i => N.testbit a (N.of_nat i)) l)),
    (fold_right xorb false (map (fun i => N.testbit b (N.of_nat i)) l)).
Qed.
Lemma low_S n r : low (S n) r = low n r ++ [N.testbit r (N.of_nat n)].
Proof. unfold low. rewrite seq_S, map_app. reflexivity. Qed.
Lemma low_double n r : low (S n) (2 * r) = false :: low n r.
Proof.
  unfold low. cbn [seq map]. f_equal; [apply N.testbit_even_0|].
  rewrite <- seq_shift, map_map. apply map_ext. intros i. rewrite Nat2N.inj_succ. apply N.testbit_even_succ. lia.
Qed.
Lemma low_mod n r : low n (r mod 2 ^ N.of_nat n) = low n r.
Proof.
  unfold low. apply map_ext_in. intros i Hi. apply in_seq in Hi. apply N.mod_pow2_bits_low. lia.
Qed.
Lemma low_reflect n r : low n (reflect n r) = rev (low n r).
Proof.
  apply (nth_ext _ _ false false); [unfold low; now rewrite rev_length, !map_length|].
  unfold low at 1. rewrite map_length, seq_length. intros i H.
  rewrite rev_nth by (unfold low; now rewrite map_length, seq_length).
  replace (length (low n r)) with n by (unfold low; now rewrite map_length, seq_length).
  assert (E : forall x j, (j < n)%nat -> nth j (low n x) false = N.testbit x (N.of_nat j)).
  { intros x j Hj. unfold low. rewrite (nth_indep _ false (N.testbit x (N.of_nat 0))) by (now rewrite map_length, seq_length).
    rewrite (map_nth (fun i => N.testbit x (N.of_nat i))), seq_nth by exact Hj. reflexivity. }
  rewrite !E by lia. rewrite (reflect_testbit CRC32_PNG) by exact H. do 2 f_equal. lia.
Qed.

Section Even.
Context (P : crc_parameters) (HP : crc_ok P).
Notation w := (W P).
Lemma poly_par : Nat.even (generator_terms P) = par (low w (poly P)).
Proof. unfold generator_terms. rewrite Nat.even_succ. apply filter_par. Qed.

Lemma step_par (even : par (low w (poly P)) = true) r b : par (low w (divide_bit P r b)) = xorb (par (low w r)) b.
Proof.
  assert (E : par (low w ((2 * r) mod 2 ^ N.of_nat w)) = xorb (par (low w r)) (N.testbit r (N.of_nat (w - 1)))).
  { rewrite low_mod. destruct HP as (H & _). destruct w as [|n]; [lia|]. rewrite low_double, low_S, par_app.
    replace (S n - 1)%nat with n by lia. cbn [par fold_right]. unfold par. cbn.
    now destruct (fold_right xorb false (low n r)), (N.testbit r (N.of_nat n)). }
  unfold divide_bit. cbv zeta. destruct (N.testbit r (N.of_nat (w - 1))), b; cbn [xorb]; rewrite ?low_lxor, ?even, E;
    now destruct (par (low w r)).
Qed.
Lemma register_par (even : par (low w (poly P)) = true) bs : forall r,
  par (low w (fold_left (divide_bit P) bs r)) = xorb (par (low w r)) (par bs).
Proof.
  induction bs as [|b bs IH]; intros r; [now rewrite xorb_false_r|]. cbn [fold_left]. rewrite IH, step_par by exact even.
  unfold par at 4. cbn [fold_right]. apply xorb_assoc.
Qed.
Lemma octets_par x : par (flat_map octet_msb_first (rev (octets_le (w / 8) x))) = par (low w x).
Proof.
  rewrite be_bits, par_rev, le_bits. replace (8 * (w / 8))%nat with w; [reflexivity|]. destruct HP as (_ & H & _). lia.
Qed.
Lemma digest_par (even : par (low w (poly P)) = true) os :
  par (flat_map octet_msb_first (rev (octets_le (w / 8) (CRC P os)))) =
  xorb (xorb (par (low w (init P))) (par (flat_map octet_msb_first os))) (par (low w (final_xor P))).
Proof.
  rewrite octets_par. unfold CRC. cbv zeta. rewrite low_lxor. f_equal.
  rewrite <- (message_par P), <- (register_par even). destruct (reflect_rem P); [|reflexivity]. now rewrite low_reflect, par_rev.
Qed.

(** ** The pattern of the generator *)
Definition pattern : list bool := true :: rev (low w (poly P)).
Lemma pattern_length : length pattern = S w.
Proof. unfold pattern, low. cbn [length]. now rewrite rev_length, map_length, seq_length. Qed.
Lemma pattern_par : par pattern = Nat.odd (generator_terms P).
Proof.
  rewrite <- Nat.negb_even, poly_par. unfold pattern. rewrite <- (par_rev (low w (poly P))). unfold par. cbn [fold_right].
  now destruct (fold_right xorb false (rev (low w (poly P)))).
Qed.
Lemma pattern_register : fold_left (divide_bit P) pattern 0 = 0.
Proof.
  unfold pattern. cbn [fold_left].
  assert (E : divide_bit P 0 true = poly P).
  { unfold divide_bit. cbv zeta. rewrite N.bits_0. cbn [xorb]. rewrite N.mul_0_r, N.mod_0_l; [apply N.lxor_0_l|now apply N.pow_nonzero]. }
  rewrite E. assert (L : length (rev (low w (poly P))) = w) by (unfold low; now rewrite rev_length, map_length, seq_length).
  rewrite (tail_register P HP) by exact L.
  assert (A : aligned P 0 (rev (low w (poly P))) = poly P).
  { assert (FA : fits w (aligned P 0 (rev (low w (poly P))))) by (apply (aligned_fits P HP); lia).
    assert (FP : fits w (poly P)) by apply HP.
    apply N.bits_inj; intro j. destruct (N.lt_ge_cases j (N.of_nat w)) as [H|H]; [|now rewrite !(high_bits P)].
    replace j with (N.of_nat (w - 1 - (w - 1 - N.to_nat j))) by lia. set (i := (w - 1 - N.to_nat j)%nat).
    assert (Hi : (i < w)%nat) by lia. clearbody i. clear H j. rewrite (aligned_testbit P) by lia. cbn [Nat.leb]. rewrite Nat.sub_0_r.
    rewrite rev_nth by (unfold low; now rewrite map_length, seq_length). unfold low. rewrite map_length, seq_length.
    replace (w - S i)%nat with (w - 1 - i)%nat by lia. apply (nth_bits P). lia. }
  rewrite A, N.lxor_nilpotent. generalize w. intros n. induction n as [|n IH]; [reflexivity|].
  change (Nat.iter (S n) (LCrc.T P) 0) with (LCrc.T P (Nat.iter n (LCrc.T P) 0)). rewrite IH. apply (T_0 P).
Qed.

(** Octets with given bits. *)
Definition octet_of (bs : list bool) : N := fold_left (fun a b => 2 * a + N.b2n b) bs 0.
Lemma octet_of_8 a b c d e f g h : let l := [a; b; c; d; e; f; g; h] in fits 8 (octet_of l) /\ octet_msb_first (octet_of l) = l.
Proof. destruct a, b, c, d, e, f, g, h; split; reflexivity. Qed.
Lemma bits_onto n : forall bs, length bs = (8 * n)%nat ->
  exists os, length os = n /\ Forall (fits 8) os /\ message_bits P os = bs.
Proof.
  induction n as [|n IH]; intros bs L.
  - exists []. destruct bs; [|discriminate L]. repeat split. constructor.
  - destruct bs as [|a [|b [|c [|d [|e [|f [|g [|h bs]]]]]]]]; try (cbn [length] in L; lia).
    destruct (IH bs) as (os & LO & FO & EO); [cbn [length] in L; lia|].
    destruct (reflect_in P) eqn:R.
    + destruct (octet_of_8 h g f e d c b a) as [F8 E8]. exists (octet_of [h; g; f; e; d; c; b; a] :: os).
      split; [cbn; lia|]. split; [now constructor|]. unfold message_bits in *. rewrite R in *. cbn [flat_map]. rewrite E8, EO. reflexivity.
    + destruct (octet_of_8 a b c d e f g h) as [F8 E8]. exists (octet_of [a; b; c; d; e; f; g; h] :: os).
      split; [cbn; lia|]. split; [now constructor|]. unfold message_bits in *. rewrite R in *. cbn [flat_map]. rewrite E8, EO. reflexivity.
Qed.
Lemma xor_twice a : forall b, length a = length b ->
  map (fun p => xorb (fst p) (snd p)) (combine a (map (fun p => xorb (fst p) (snd p)) (combine a b))) = b.
Proof.
  induction a as [|x a IH]; intros [|y b] L; try discriminate L; [reflexivity|]. cbn [combine map fst snd].
  rewrite IH by now injection L. now destruct x, y.
Qed.
Lemma par_false m : par (repeat false m) = false.
Proof. induction m as [|m IH]; [reflexivity|]. cbn [repeat]. unfold par in *. cbn [fold_right]. now rewrite IH. Qed.
Lemma missed os : (w < 8 * length os)%nat ->
  exists os', length os' = length os /\ Forall (fits 8) os' /\ CRC P os' = CRC P os /\
    Nat.odd (flipped os os') = Nat.odd (generator_terms P).
Proof.
  intros H. set (err := pattern ++ repeat false (8 * length os - S w)).
  assert (LE : length err = (8 * length os)%nat) by (unfold err; rewrite app_length, pattern_length, repeat_length; lia).
  pose proof (bits_length P os) as LM.
  destruct (bits_onto (length os) (map (fun p => xorb (fst p) (snd p)) (combine (message_bits P os) err))) as (os' & L & F & E).
  { rewrite map_length, combine_length. lia. }
  pose proof (bits_length P os') as LM'.
  exists os'. split; [exact L|]. split; [exact F|]. split.
  - symmetry. apply (registers P HP). apply N.lxor_eq_0_iff. rewrite (difference P) by lia. rewrite E, xor_twice, N.lxor_nilpotent by lia.
    unfold err. rewrite fold_left_app, pattern_register, (zeros_iter P). apply (iter_0 P).
  - rewrite flipped_par by lia. rewrite <- !(message_par P). rewrite <- par_combine by lia. rewrite E, xor_twice by lia.
    unfold err. now rewrite par_app, par_false, xorb_false_r, pattern_par.
Qed.
End Even.

Lemma parity cc P it it' os os' :
  crc_ok P -> Nat.even (generator_terms P) = true -> computes cc P ->
  Forall (fits 8) os -> Forall (fits 8) os' -> length os = length os' ->
  exists s s', stream_range cc it (crc_init cc) os = Some s /\ stream_range cc it' (crc_init cc) os' = Some s' /\
    Nat.odd (flipped (crc_result cc (W P) s) (crc_result cc (W P) s')) = Nat.odd (flipped os os').
Proof.
  intros HP HE HC F F' L. rewrite poly_par in HE.
  destruct (digest_range cc P it os HP HC F) as (s & E1 & R1). destruct (digest_range cc P it' os' HP HC F') as (s' & E2 & R2).
  exists s, s'. split; [exact E1|]. split; [exact E2|]. rewrite R1, R2.
  rewrite !flipped_par by (rewrite ?rev_length, ?octets_le_length; auto). rewrite !(digest_par P HP HE).
  now destruct (par (low (W P) (init P))), (par (low (W P) (final_xor P))), (par (flat_map octet_msb_first os)), (par (flat_map octet_msb_first os')).
Qed.
Lemma flipped_same a : flipped a a = 0%nat.
Proof.
  unfold flipped. induction (flat_map octet_msb_first a) as [|b l IH]; [reflexivity|]. cbn [combine filter fst snd].
  now rewrite xorb_nilpotent.
Qed.
Lemma odd_detected cc P it it' os os' :
  crc_ok P -> Nat.even (generator_terms P) = true -> computes cc P ->
  Forall (fits 8) os -> Forall (fits 8) os' -> length os = length os' -> Nat.odd (flipped os os') = true ->
  exists s s', stream_range cc it (crc_init cc) os = Some s /\ stream_range cc it' (crc_init cc) os' = Some s' /\
    crc_result cc (W P) s <> crc_result cc (W P) s'.
Proof.
  intros HP HE HC F F' L O. destruct (parity cc P it it' os os' HP HE HC F F' L) as (s & s' & E1 & E2 & Q).
  exists s, s'. split; [exact E1|]. split; [exact E2|]. intros E. rewrite E, flipped_same, O in Q. discriminate Q.
Qed.
Lemma odd_missed cc P it it' os :
  crc_ok P -> Nat.odd (generator_terms P) = true -> computes cc P -> Forall (fits 8) os -> (W P / 8 < length os)%nat ->
  exists os', length os' = length os /\ Forall (fits 8) os' /\ Nat.odd (flipped os os') = true /\
  exists s s', stream_range cc it (crc_init cc) os = Some s /\ stream_range cc it' (crc_init cc) os' = Some s' /\
    crc_result cc (W P) s = crc_result cc (W P) s'.
Proof.
  intros HP HO HC F L. destruct (missed P HP os) as (os' & L' & F' & C & O); [destruct HP as (_ & H & _); lia|].
  exists os'. split; [exact L'|]. split; [exact F'|]. split; [now rewrite O|].
  destruct (digest_range cc P it os HP HC F) as (s & E1 & R1). destruct (digest_range cc P it' os' HP HC F') as (s' & E2 & R2).
  exists s, s'. split; [exact E1|]. split; [exact E2|]. now rewrite R1, R2, C.
Qed.
Lemma ccitt_ok : crc_ok CRC16_CCITT.
Proof. unfold crc_ok, CRC16_CCITT, fits. cbn [W poly init final_xor]. repeat split; lia. Qed.
