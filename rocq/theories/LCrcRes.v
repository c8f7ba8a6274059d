(** CRCs of messages followed by their checksum: proofs. *)
From Coq Require Import NArith Arith List Bool Lia ZifyBool ZifyNat ZifyN ZArith.
From Verif Require Import SpecStream LStream MPack LArith SpecWords LWords SpecCrc MCrc LCrc LCrc2 LMDStmt.
Import ListNotations.
Local Open Scope N_scope.
Ltac Zify.zify_post_hook ::= Z.div_mod_to_equations.

Lemma app_inj_len {A} (a : list A) : forall b c d, length a = length b -> a ++ c = b ++ d -> a = b /\ c = d.
Proof.
  induction a as [|x a IH]; intros [|y b] c d L E; try discriminate L; [auto|].
  cbn [app] in E. injection E as -> E. destruct (IH b c d) as [-> ->]; auto.
Qed.
Section R.
Context (P : crc_parameters) (HP : crc_ok P).
Notation T := (LCrc.T P).
Notation w := (W P).

Lemma tail_register bs r : length bs = w ->
  fold_left (divide_bit P) bs r = Nat.iter w T (N.lxor r (aligned P 0 bs)).
Proof.
  intros L. pose proof (difference P bs bs r 0 eq_refl) as D. rewrite xor_self, N.lxor_0_r, L in D.
  rewrite burst_register, L in D by (auto; lia).
  rewrite (zeros_iter P), N2Nat.inj_iter, Nat2N.id in D. rewrite (iter_T_lxor P), <- D.
  rewrite N.lxor_assoc, N.lxor_nilpotent. now rewrite N.lxor_0_r.
Qed.

Lemma aligned_testbit bs : forall k i, (k + length bs <= w)%nat -> (i < w)%nat ->
  N.testbit (aligned P k bs) (N.of_nat (w - 1 - i)) = if (k <=? i)%nat then nth (i - k) bs false else false.
Proof.
  induction bs as [|b bs IH]; intros k i L H.
  - cbn [aligned]. rewrite N.bits_0. destruct (k <=? i)%nat; [|reflexivity]. now destruct (i - k)%nat.
  - cbn [aligned length] in *. rewrite N.lxor_spec, IH by lia.
    replace (N.testbit (if b then 2 ^ (N.of_nat w - 1 - N.of_nat k) else 0) (N.of_nat (w - 1 - i))) with (b && (k =? i)%nat).
    2:{ destruct b; [|now rewrite N.bits_0]. rewrite N.pow2_bits_eqb. destruct (Nat.eqb_spec k i); destruct (N.eqb_spec (N.of_nat w - 1 - N.of_nat k) (N.of_nat (w - 1 - i))); try reflexivity; lia. }
    destruct (Nat.leb_spec k i).
    + destruct (Nat.eqb_spec k i) as [->|N].
      * destruct (Nat.leb_spec (S i) i); [lia|]. rewrite Nat.sub_diag. cbn [nth]. now rewrite andb_true_r, xorb_false_r.
      * destruct (Nat.leb_spec (S k) i); [|lia]. rewrite andb_false_r, xorb_false_l.
        replace (i - k)%nat with (S (i - S k)) by lia. reflexivity.
    + destruct (Nat.eqb_spec k i); [lia|]. destruct (Nat.leb_spec (S k) i); [lia|]. now rewrite andb_false_r.
Qed.

Lemma octet_lsb o : rev (octet_msb_first o) = map (fun i => N.testbit o (N.of_nat i)) (seq 0 8).
Proof. reflexivity. Qed.
Lemma shift8 n : map (fun i => (i + 8)%nat) (seq 0 n) = seq 8 n.
Proof.
  assert (E : forall k, map (fun i => (i + 8)%nat) (seq k n) = seq (k + 8) n); [|apply (E 0%nat)].
  induction n as [|n IH]; intros k; [reflexivity|]. cbn [seq map]. now rewrite IH.
Qed.
Lemma le_bits m : forall c, flat_map (fun o => rev (octet_msb_first o)) (octets_le m c) =
  map (fun i => N.testbit c (N.of_nat i)) (seq 0 (8 * m)).
Proof.
  induction m as [|m IH]; intros c; [reflexivity|]. cbn [octets_le flat_map]. rewrite IH, octet_lsb.
  replace (8 * S m)%nat with (8 + 8 * m)%nat by lia. rewrite seq_app, map_app. f_equal.
  - apply map_ext_in. intros i Hi. apply in_seq in Hi. change 256 with (2 ^ 8). rewrite N.mod_pow2_bits_low; [reflexivity|lia].
  - cbn [Nat.add]. rewrite <- shift8. rewrite map_map. apply map_ext. intros i. change 256 with (2 ^ 8). rewrite N.div_pow2_bits. f_equal. lia.
Qed.
Lemma be_bits l : flat_map octet_msb_first (rev l) = rev (flat_map (fun o => rev (octet_msb_first o)) l).
Proof.
  induction l as [|o l IH]; [reflexivity|]. cbn [rev flat_map]. rewrite flat_map_app, IH, rev_app_distr, rev_involutive.
  cbn [flat_map]. now rewrite app_nil_r.
Qed.
Definition tail_of (c : N) : list N := if reflect_in P then octets_le (w / 8) c else rev (octets_le (w / 8) c).
Lemma tail_bits c : message_bits P (tail_of c) =
  let B := map (fun i => N.testbit c (N.of_nat i)) (seq 0 w) in if reflect_in P then B else rev B.
Proof.
  assert (E : (w = 8 * (w / 8))%nat) by (destruct HP as (_ & H & _); lia).
  unfold message_bits, tail_of. cbv zeta. replace (seq 0 w) with (seq 0 (8 * (w / 8))) by now rewrite <- E. rewrite <- le_bits. destruct (reflect_in P); [reflexivity|]. apply be_bits.
Qed.
Definition reg_form (c : N) : N := if reflect_in P then reflect w c else c.
Lemma nth_bits c i : (i < w)%nat -> nth i (map (fun i => N.testbit c (N.of_nat i)) (seq 0 w)) false = N.testbit c (N.of_nat i).
Proof.
  intros H. rewrite (nth_indep _ false (N.testbit c (N.of_nat 0))) by (now rewrite map_length, seq_length).
  rewrite (map_nth (fun i => N.testbit c (N.of_nat i))), seq_nth by exact H. reflexivity.
Qed.
Lemma tail_length c : length (message_bits P (tail_of c)) = w.
Proof. rewrite tail_bits. cbv zeta. destruct (reflect_in P); rewrite ?rev_length, map_length, seq_length; reflexivity. Qed.
Lemma high_bits x i : fits w x -> N.of_nat w <= i -> N.testbit x i = false.
Proof. intros F H. now apply (LArith.fits_testbit w). Qed.
Lemma tail_aligned c : fits w c -> aligned P 0 (message_bits P (tail_of c)) = reg_form c.
Proof.
  intros F. pose proof (tail_length c) as L.
  assert (FA : fits w (aligned P 0 (message_bits P (tail_of c)))) by (apply (aligned_fits P HP); lia).
  assert (FR : fits w (reg_form c)) by (unfold reg_form; destruct (reflect_in P); [apply reflect_fits|exact F]).
  apply N.bits_inj; intro j. destruct (N.lt_ge_cases j (N.of_nat w)) as [H|H]; [|now rewrite !high_bits].
  replace j with (N.of_nat (w - 1 - (w - 1 - N.to_nat j))) by lia. set (i := (w - 1 - N.to_nat j)%nat).
  assert (Hi : (i < w)%nat) by lia. clearbody i. clear H j. rewrite aligned_testbit by lia. cbn [Nat.leb]. rewrite Nat.sub_0_r, tail_bits. cbv zeta.
  unfold reg_form. destruct (reflect_in P).
  - rewrite nth_bits by exact Hi. rewrite (reflect_testbit P) by lia. replace (w - 1 - (w - 1 - i))%nat with i by lia. reflexivity.
  - rewrite rev_nth by (now rewrite map_length, seq_length). rewrite map_length, seq_length.
    replace (w - S i)%nat with (w - 1 - i)%nat by lia. apply nth_bits. lia.
Qed.
Lemma reflect_twice x : fits w x -> reflect w (reflect w x) = x.
Proof.
  intros F. apply N.bits_inj; intro j. destruct (N.lt_ge_cases j (N.of_nat w)) as [H|H].
  - replace j with (N.of_nat (N.to_nat j)) by lia. rewrite (reflect_testbit P), (reflect_testbit P) by lia. f_equal. lia.
  - rewrite !high_bits; auto. apply reflect_fits.
Qed.

Definition residue_value : N :=
  let r := Nat.iter w T (reg_form (final_xor P)) in N.lxor (if reflect_rem P then reflect w r else r) (final_xor P).
Lemma crc_with_tail os : reflect_in P = reflect_rem P -> CRC P (os ++ tail_of (CRC P os)) = residue_value.
Proof.
  intros R. unfold CRC at 1. assert (M : forall a b, message_bits P (a ++ b) = message_bits P a ++ message_bits P b) by (intros; unfold message_bits; apply flat_map_app).
  rewrite M, fold_left_app, tail_register by apply tail_length. rewrite tail_aligned by apply (crc_fits P HP).
  unfold residue_value. set (r := fold_left _ _ _).
  assert (E : N.lxor r (reg_form (CRC P os)) = reg_form (final_xor P)).
  { unfold reg_form, CRC. fold r. rewrite R. destruct (reflect_rem P).
    - rewrite (reflect_lxor P), reflect_twice, <- N.lxor_assoc, N.lxor_nilpotent, N.lxor_0_l; [reflexivity|].
      apply (register_fits P HP). apply HP.
    - now rewrite <- N.lxor_assoc, N.lxor_nilpotent, N.lxor_0_l. }
  now rewrite E.
Qed.

Lemma octet_bits_inj a b : fits 8 a -> fits 8 b -> octet_msb_first a = octet_msb_first b -> a = b.
Proof.
  intros Fa Fb E. unfold octet_msb_first in E. cbn [map] in E. injection E as E7 E6 E5 E4 E3 E2 E1 E0.
  apply N.bits_inj; intro j. destruct (N.lt_ge_cases j 8) as [H|H].
  - assert (C : j = 0 \/ j = 1 \/ j = 2 \/ j = 3 \/ j = 4 \/ j = 5 \/ j = 6 \/ j = 7) by lia.
    destruct C as [->|[->|[->|[->|[->|[->|[->| ->]]]]]]]; assumption.
  - now rewrite (LArith.fits_testbit 8 a j), (LArith.fits_testbit 8 b j).
Qed.
Lemma message_bits_inj a : forall b, length a = length b -> Forall (fits 8) a -> Forall (fits 8) b ->
  message_bits P a = message_bits P b -> a = b.
Proof.
  induction a as [|x a IH]; intros [|y b] L Fa Fb E; try discriminate L; [reflexivity|].
  inversion Fa as [|? ? Fx Fa']; inversion Fb as [|? ? Fy Fb']; subst. unfold message_bits in E. cbn [flat_map] in E.
  apply app_inj_len in E.
  - destruct E as [E1 E2]. rewrite (IH b); auto. f_equal. apply octet_bits_inj; auto.
    destruct (reflect_in P); [|exact E1]. apply (f_equal (@rev bool)) in E1. now rewrite !rev_involutive in E1.
  - destruct (reflect_in P); reflexivity.
Qed.
End R.

Lemma appended P : crc_ok P -> N.odd (poly P) = true -> reflect_in P = reflect_rem P ->
  forall cc it it' m t, computes cc P -> Forall (fits 8) m -> Forall (fits 8) t -> length t = (W P / 8)%nat ->
  exists s s', stream_range cc it (crc_init cc) m = Some s /\ stream_range cc it' (crc_init cc) (m ++ t) = Some s' /\
    (crc_result cc (W P) s' = rev (octets_le (W P / 8) (residue_value P)) <->
     t = if reflect_in P then rev (crc_result cc (W P) s) else crc_result cc (W P) s).
Proof.
  intros HP HO HR cc it it' m t HC Fm Ft L.
  assert (FT : forall c, Forall (fits 8) (tail_of P c)).
  { intros c. unfold tail_of. destruct (reflect_in P); [|apply Forall_rev]; apply octets_le_fits. }
  assert (LT : forall c, length (tail_of P c) = (W P / 8)%nat).
  { intros c. unfold tail_of. destruct (reflect_in P); rewrite ?rev_length; apply octets_le_length. }
  destruct (digest_range cc P it m HP HC Fm) as (s & E1 & R1).
  destruct (digest_range cc P it' (m ++ t) HP HC ltac:(apply Forall_app; auto)) as (s' & E2 & R2).
  exists s, s'. split; [exact E1|]. split; [exact E2|].
  replace (if reflect_in P then rev (crc_result cc (W P) s) else crc_result cc (W P) s) with (tail_of P (CRC P m)).
  2:{ rewrite R1. unfold tail_of. destruct (reflect_in P); [now rewrite rev_involutive|reflexivity]. }
  rewrite R2. split.
  - intros E. destruct (list_eq_dec Bool.bool_dec (message_bits P t) (message_bits P (tail_of P (CRC P m)))) as [D|D].
    + apply (message_bits_inj P); auto. now rewrite LT.
    + exfalso. refine (burst_octets P HP _ (m ++ t) (m ++ tail_of P (CRC P m)) (message_bits P m) _ _ [] _ _ _ _ D _).
      * now rewrite N.bit0_odd.
      * unfold message_bits. now rewrite flat_map_app, app_nil_r.
      * unfold message_bits. now rewrite flat_map_app, app_nil_r.
      * now rewrite !bits_length, L, LT.
      * rewrite bits_length, L. destruct HP as (_ & H & _). lia.
      * unfold CRC_octets. rewrite E. now rewrite (crc_with_tail P HP m HR).
  - intros ->. now rewrite (crc_with_tail P HP m HR).
Qed.
Lemma png_residue : rev (octets_le 4 (residue_value CRC32_PNG)) = [0x21; 0x44; 0xdf; 0x1c].
Proof. vm_compute. reflexivity. Qed.
