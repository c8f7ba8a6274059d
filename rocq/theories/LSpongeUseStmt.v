(** SHA-3 and Keccak objects in every program: whole messages one after the other. *)
From Coq Require Import NArith Arith List Bool Lia ZifyBool ZifyNat ZifyN ZArith.
From Verif Require Import SpecAnyUse LAnyUse LAnyUseStmt.
From Verif Require Import SpecCollide SpecStream LStream SpecWords LWords SpecMD SpecMDOctets LMDOctets MPack LInj MAcc LAcc MConstr LMD LMDStmt LGen SpecStore SpecKeccak MKeccak
  SpecSponge LKeccakF LKeccakP LKeccakBij LSponge LSpongeStmt LSpongeCol SpecObject MObject MSpongeObjects SpecSpongeUse LSpongeUse.
Import ListNotations.
Ltac Zify.zify_post_hook ::= Z.div_mod_to_equations.
#[local] Opaque keccak_f.

Lemma sponge_returns_same d sfx cs : forall P Q, (forall i, P i = Q i) -> sponge_returns d sfx P cs = sponge_returns d sfx Q cs.
Proof.
  assert (PUT : forall i (x : list bool) P Q, (forall j, P j = Q j) -> forall j, put i x P j = put i x Q j).
  { intros i x P Q H j. unfold put. destruct (j =? i); auto. }
  induction cs as [|c cs IH]; intros P Q H; [reflexivity|]. destruct c; cbn [sponge_returns]; rewrite <- ?H;
    repeat match goal with |- match ?x with _ => _ end = match ?x with _ => _ end => destruct x; try reflexivity end;
    try (apply f_equal); apply IH, PUT; exact H.
Qed.

Lemma put_here {A} i (x : A) P : put i x P i = Some x.
Proof. unfold put. now rewrite Nat.eqb_refl. Qed.

Lemma lsb_bits_length os : length (octets_bits_lsb os) = 8 * length os.
Proof. unfold octets_bits_lsb. rewrite stream_length. lia. Qed.
Lemma lsb_bits_app a b : octets_bits_lsb (a ++ b) = octets_bits_lsb a ++ octets_bits_lsb b.
Proof. apply stream_app. Qed.

Lemma combine_front {A B} (x : list A) : forall m : list B, combine x m = combine x (firstn (length x) m).
Proof. induction x as [|a x IH]; intros [|b m]; try reflexivity. cbn [combine length firstn]. now rewrite <- IH. Qed.
Lemma xor_front_bits D m : length D <= length m -> octets_bits_lsb (xor_front D m) =
  xor_bits (octets_bits_lsb D) (firstn (8 * length D) (octets_bits_lsb m)) ++ skipn (8 * length D) (octets_bits_lsb m).
Proof.
  intros HL. unfold xor_front. rewrite lsb_bits_app. f_equal.
  - rewrite <- octets_bits_lsb_firstn. destruct (Nat.le_gt_cases (length D) (length m)) as [L|L].
    + unfold octets_bits_lsb. rewrite <- xor_stream by (rewrite firstn_length; clear - L; lia). f_equal. f_equal. apply combine_front.
    + exfalso. clear - L HL. lia.
  - transitivity (skipn (8 * length D) (octets_bits_lsb (firstn (length D) m) ++ octets_bits_lsb (skipn (length D) m))).
    2:{ now rewrite <- lsb_bits_app, firstn_skipn. }
    assert (LF : length (octets_bits_lsb (firstn (length D) m)) = 8 * length D).
    { rewrite lsb_bits_length, firstn_length, Nat.min_l by exact HL. reflexivity. }
    rewrite skipn_app, LF, Nat.sub_diag, (skipn_all2 (octets_bits_lsb (firstn (length D) m))) by (rewrite LF; reflexivity). reflexivity.
Qed.

Section S.
Context (d bw : nat) (sfx : list bool) (Hbw : 0 < bw <= 25) (Hr : 1600 - 2 * d = 64 * bw).
Notation rate := (1600 - 2 * d).
Definition shaped : published := Build_published true 8 bw 8 0x80%N [] (fun s _ => s) 0.
Lemma R8 : rate / 8 = 8 * bw. Proof. rewrite Hr. clear. lia. Qed.

Lemma words_of_octets os : Forall (fits 8) os -> length os <= 8 * bw ->
  length (words_of d os) = bw /\ Forall (fits 64) (words_of d os) /\ block_octets (words_of d os) = os ++ repeat 0%N (8 * bw - length os).
Proof.
  intros F L. unfold words_of. rewrite R8. unfold block_octets.
  apply (block_of_octets shaped (Nat.lt_0_succ 7) (proj1 Hbw) os F L).
Qed.
Lemma taken from (m : list N) : from mod (8 * bw) = 0 -> (from = 0 \/ m <> []) -> length m <= 8 * bw ->
  octets_taken d (N.of_nat (8 * (from + length m))) = length m.
Proof. intros. unfold octets_taken. rewrite R8. apply (used shaped (Nat.lt_0_succ 7) (proj1 Hbw) from m); assumption. Qed.

Lemma padded_cons St A B : length A = rate ->
  absorbed_from d St (padded_bits d sfx (A ++ B)) = absorbed_from d (absorb_block rate St A) (padded_bits d sfx B).
Proof.
  intros LA. unfold absorbed_from, padded_bits.
  replace (pad10star1 rate (length ((A ++ B) ++ sfx))) with (pad10star1 rate (length (B ++ sfx))).
  2:{ unfold pad10star1. do 4 f_equal. rewrite !app_length, LA. f_equal.
      replace (rate + length B + length sfx + 2) with (length B + length sfx + 2 + 1 * rate) by (clear; lia).
      rewrite Nat.mod_add by (rewrite Hr; clear - Hbw; lia). reflexivity. }
  rewrite <- !app_assoc. rewrite (chunks_cons rate A) by (auto; rewrite Hr; clear - Hbw; lia). rewrite fold_cons. reflexivity.
Qed.

Lemma sponge_message fuel i cs : forall m St from slots, length m < fuel -> from mod (8 * bw) = 0 -> (from = 0 \/ m <> []) ->
  Forall (fits 8) m -> slots i = Some St ->
  let St' := absorbed_from d St (padded_bits d sfx (octets_bits_lsb m)) in
  sponge_returns d sfx slots (sponge_calls d fuel i from m ++ cs) =
  option_map (cons (i, digest_of d St')) (sponge_returns d sfx (put i (left_over d St') slots) cs).
Proof.
  induction fuel as [|fuel IH]; intros m St from slots Hf H0 H1 F Hi St'; [exfalso; clear - Hf; lia|]. cbn [sponge_calls]. rewrite R8.
  destruct (Nat.leb_spec (length m) (8 * bw)) as [L|L].
  - cbn [app sponge_returns]. rewrite Hi. destruct (words_of_octets m F L) as (_ & _ & E).
    rewrite taken by assumption. rewrite E. rewrite firstn_app_exact by reflexivity. reflexivity.
  - cbn [app sponge_returns]. rewrite Hi.
    assert (LF : length (firstn (8 * bw) m) = 8 * bw) by (rewrite firstn_length; clear - L; lia).
    assert (FF : Forall (fits 8) (firstn (8 * bw) m)) by now apply Forall_firstn'.
    assert (FS : Forall (fits 8) (skipn (8 * bw) m)) by now apply skipn_fit.
    destruct (words_of_octets (firstn (8 * bw) m) FF ltac:(rewrite LF; reflexivity)) as (_ & _ & E). rewrite E, LF, Nat.sub_diag, app_nil_r.
    assert (LS : length (skipn (8 * bw) m) = length m - 8 * bw) by apply skipn_length.
    rewrite (IH (skipn (8 * bw) m) (absorb_block rate St (octets_bits_lsb (firstn (8 * bw) m))) (from + 8 * bw)).
    + rewrite <- padded_cons by (rewrite lsb_bits_length, LF, Hr; clear; lia).
      rewrite <- lsb_bits_app, firstn_skipn. fold St'.
      apply f_equal. apply sponge_returns_same. intros j. unfold put. now destruct (j =? i).
    + rewrite LS. clear - Hf L Hbw. lia.
    + rewrite <- Nat.add_mod_idemp_l, H0 by (clear - Hbw; lia). apply Nat.mod_same. clear - Hbw. lia.
    + right. intros X. rewrite X in LS. cbn [length] in LS. clear - LS L. lia.
    + exact FS.
    + unfold put. now rewrite Nat.eqb_refl.
Qed.

Lemma sponge_calls_ok fuel i : forall m from, Forall (fits 8) m -> (N.of_nat (8 * (from + length m)) < 2 ^ 64)%N ->
  Forall (octet_arguments 64 bw) (sponge_calls d fuel i from m).
Proof.
  induction fuel as [|fuel IH]; intros m from F Ht; [constructor|]. cbn [sponge_calls]. rewrite R8.
  destruct (Nat.leb_spec (length m) (8 * bw)) as [L|L].
  - destruct (words_of_octets m F L) as (A & B & _). constructor; [|constructor]. split; [cbn [arguments_ok]; auto|].
    clear Ht. rewrite Nat2N.inj_mul. change (N.of_nat 8) with 8%N. rewrite N.mul_comm. apply N.mod_mul. discriminate.
  - assert (FF : Forall (fits 8) (firstn (8 * bw) m)) by now apply Forall_firstn'.
    assert (LF : length (firstn (8 * bw) m) = 8 * bw) by (rewrite firstn_length; clear - L; lia).
    destruct (words_of_octets (firstn (8 * bw) m) FF ltac:(rewrite LF; reflexivity)) as (A & B & _). constructor.
    + split; [|exact I]. cbn [arguments_ok]. split; [exact A|]. split; [exact B|].
      eapply N.le_lt_trans; [|exact Ht]. clear - L. lia.
    + apply IH; [now apply skipn_fit|]. rewrite skipn_length.
      replace (from + 8 * bw + (length m - 8 * bw)) with (from + length m) by (clear - L; lia). exact Ht.
Qed.

(** A state that is zero after its first bits is a state that has absorbed them. *)
Lemma xor_zero_left L : xor_bits (repeat false (length L)) L = L.
Proof. unfold xor_bits. induction L as [|x L IH]; [reflexivity|]. cbn [length repeat combine map fst snd]. rewrite IH. now destruct x. Qed.
Lemma xor_len a b : length a = length b -> length (xor_bits a b) = length b.
Proof. intros H. unfold xor_bits. rewrite map_length, combine_length, H. apply Nat.min_id. Qed.
Lemma xor_app a b c e : length a = length c -> xor_bits (a ++ b) (c ++ e) = xor_bits a c ++ xor_bits b e.
Proof.
  unfold xor_bits. revert c. induction a as [|x a IH]; intros [|y c] L; try discriminate L; [reflexivity|].
  cbn [app combine map]. rewrite IH by (now injection L). reflexivity.
Qed.
Lemma absorb_front X A B : length A = length X -> length (A ++ B) = rate ->
  absorb_block rate (X ++ repeat false (1600 - length X)) (A ++ B) = absorb_block rate (repeat false 1600) (xor_bits X A ++ B).
Proof.
  intros LX LP. unfold absorb_block. f_equal. rewrite <- !app_assoc.
  assert (LB : length (B ++ repeat false (1600 - rate)) = 1600 - length X).
  { rewrite app_length, repeat_length. rewrite app_length in LP. rewrite Hr in LP |- *. clear - LX LP Hbw. lia. }
  rewrite xor_app by (symmetry; exact LX). rewrite <- LB, xor_zero_left.
  assert (LT : length (xor_bits X A ++ B ++ repeat false (1600 - rate)) = 1600).
  { rewrite app_length, LB, (xor_len X A (eq_sym LX)), LX. rewrite app_length in LP. rewrite Hr in LP. clear - LX LP Hbw. lia. }
  pose proof (xor_zero_left (xor_bits X A ++ B ++ repeat false (1600 - rate))) as Z. rewrite LT in Z. symmetry. exact Z.
Qed.
Lemma padded_front X M : length X <= rate -> length X <= length M ->
  absorbed_from d (X ++ repeat false (1600 - length X)) (padded_bits d sfx M) =
  absorbed_from d (repeat false 1600) (padded_bits d sfx (xor_bits X (firstn (length X) M) ++ skipn (length X) M)).
Proof.
  intros LX LM. set (k := length X) in *. set (A := firstn k M). set (B := skipn k M).
  assert (EM : M = A ++ B) by (symmetry; apply firstn_skipn).
  assert (LA : length A = k) by (unfold A; rewrite firstn_length; apply Nat.min_l; exact LM).
  assert (LXA : length (xor_bits X A) = length A) by (apply xor_len; symmetry; exact LA).
  assert (Rp : 0 < rate) by (rewrite Hr; clear - Hbw; lia).
  set (Z := sfx ++ pad10star1 rate (length (M ++ sfx))).
  assert (EP : padded_bits d sfx M = A ++ (B ++ Z)).
  { unfold padded_bits, Z. rewrite EM at 1. rewrite <- !app_assoc. reflexivity. }
  assert (EP' : padded_bits d sfx (xor_bits X A ++ B) = xor_bits X A ++ (B ++ Z)).
  { unfold padded_bits, Z. rewrite <- !app_assoc. do 4 f_equal. rewrite EM. rewrite !app_length, LXA. apply Nat.add_assoc. }
  assert (LQ : rate <= length (A ++ (B ++ Z))).
  { rewrite <- EP. unfold padded_bits. pose proof (padded_mod rate (conj Rp (Nat.le_sub_l 1600 (2 * d))) (M ++ sfx)) as H.
    set (x := length ((M ++ sfx) ++ pad10star1 rate (length (M ++ sfx)))) in *.
    assert (0 < x) by (unfold x, pad10star1; rewrite !app_length; cbn [length]; clear; lia). clearbody x.
    apply Nat.div_exact in H; [|clear - Rp; lia]. destruct (x / rate); [rewrite Nat.mul_0_r in H; clear - H H0; lia|].
    rewrite H. rewrite Nat.mul_succ_r. apply Nat.le_add_l. }
  set (Y := B ++ Z) in *. rewrite EP, EP'.
  assert (EY : Y = firstn (rate - k) Y ++ skipn (rate - k) Y) by (symmetry; apply firstn_skipn).
  assert (LY : length (firstn (rate - k) Y) = rate - k).
  { rewrite firstn_length. apply Nat.min_l. rewrite app_length, LA in LQ. clear - LQ. lia. }
  rewrite EY. set (Y1 := firstn (rate - k) Y) in *. set (Y2 := skipn (rate - k) Y).
  assert (L1 : length (A ++ Y1) = rate) by (rewrite app_length, LA, LY; clear - LX; lia).
  assert (L2 : length (xor_bits X A ++ Y1) = rate) by (rewrite app_length, LXA, LA, LY; clear - LX; lia).
  rewrite !app_assoc. unfold absorbed_from. rewrite (chunks_cons rate (A ++ Y1)), (chunks_cons rate (xor_bits X A ++ Y1)) by assumption.
  rewrite !fold_cons. pose proof (absorb_front X A Y1 LA L1) as EF. fold k in EF. rewrite EF. reflexivity.
Qed.

Lemma absorbed_length St P : length St = 1600 -> length (absorbed_from d St P) = 1600.
Proof.
  assert (Rp : 0 < rate <= 1600) by (rewrite Hr; clear - Hbw; lia).
  intros HS. unfold absorbed_from. pose proof (chunks_Forall rate P (proj1 Rp)) as F. revert St HS.
  induction F as [|x l Hx F IH]; intros St HS; [exact HS|]. rewrite fold_cons. apply IH. now apply absorb_block_length.
Qed.

(** The state that digest leaves, if the digest is whole words. *)
Lemma left_words St : length St = 1600 -> d mod 64 = 0 ->
  left_over d St = octets_bits_lsb (digest_of d St) ++ repeat false (1600 - d) /\ length (digest_of d St) = d / 8.
Proof.
  intros HS H64. assert (Rp : 0 < rate <= 1600) by (rewrite Hr; clear - Hbw; lia).
  pose proof (squeezed_length rate d St Rp HS) as Lq.
  assert (H8 : d mod 8 = 0) by (clear - H64; lia).
  unfold digest_of, bits_octets_lsb, octets_bits_lsb. split.
  - rewrite stream_words_of_stream by (try reflexivity; try lia; rewrite Lq; exact H8).
    unfold left_over. replace (64 * ((d + 63) / 64)) with d by (clear - H64; lia). reflexivity.
  - rewrite words_of_stream_length, Lq. reflexivity.
Qed.
End S.

Lemma function_is d sfx m : digest_of d (absorbed_from d (repeat false 1600) (padded_bits d sfx (octets_bits_lsb m))) = sponge_function d sfx m.
Proof. reflexivity. Qed.

Theorem sponge_reused d injb o sfx i m1 m2 : sponge_size d -> sponge_object_of d injb o sfx ->
  injector_contract BOLB 64 (keccak_words d) injb ->
  Forall (fits 8) m1 -> Forall (fits 8) m2 -> (N.of_nat (8 * length m1) < 2 ^ 64)%N -> (N.of_nat (8 * length m2) < 2 ^ 64)%N ->
  d mod 64 = 0 -> 3 * d <= 1600 -> d <= 8 * length m2 ->
  object_calls o (fun s => s) nothing (New i :: sponge_hash_calls d i m1 ++ sponge_hash_calls d i m2) =
  Some [(i, sponge_function d sfx m1); (i, sponge_function d sfx (xor_front (sponge_function d sfx m1) m2))].
Proof.
  intros Hd HO HI F1 F2 L1 L2 H64 H3 HL. destruct (sponge_side d Hd) as (Hbw & _). pose proof (keccak_words_bits d Hd) as Hr. symmetry in Hr.
  set (bw := keccak_words d) in *.
  rewrite (every_sponge_program d injb o sfx _ Hd HO HI).
  2:{ constructor; [split; exact I|]. apply Forall_app. split; apply (sponge_calls_ok d bw); auto. }
  cbn [sponge_returns]. unfold sponge_hash_calls.
  assert (M0 : 0 mod (8 * bw) = 0) by (apply Nat.mod_0_l; clear - Hbw; lia).
  rewrite (sponge_message d bw sfx Hbw Hr (S (length m1)) i _ m1 (repeat false 1600) 0 _ (Nat.lt_succ_diag_r _) M0 (or_introl eq_refl) F1 (put_here _ _ _)).
  set (S1 := absorbed_from d (repeat false 1600) (padded_bits d sfx (octets_bits_lsb m1))).
  assert (LS : length S1 = 1600) by (apply (absorbed_length d bw Hbw Hr), repeat_length).
  destruct (left_words d bw Hbw Hr S1 LS H64) as [EL LD].
  assert (ED : digest_of d S1 = sponge_function d sfx m1) by exact (function_is d sfx m1). rewrite ED in *.
  rewrite <- (app_nil_r (sponge_calls d (S (length m2)) i 0 m2)).
  rewrite (sponge_message d bw sfx Hbw Hr (S (length m2)) i _ m2 (left_over d S1) 0 _ (Nat.lt_succ_diag_r _) M0 (or_introl eq_refl) F2 (put_here _ _ _)).
  set (D := sponge_function d sfx m1) in *.
  assert (LB : length (octets_bits_lsb D) = d) by (rewrite lsb_bits_length, LD; clear - H64; lia).
  assert (A1 : length (octets_bits_lsb D) <= 1600 - 2 * d) by (rewrite LB; clear - H3; lia).
  assert (A2 : length (octets_bits_lsb D) <= length (octets_bits_lsb m2)) by (rewrite LB, lsb_bits_length; exact HL).
  pose proof (padded_front d bw sfx Hbw Hr (octets_bits_lsb D) (octets_bits_lsb m2) A1 A2) as E2.
  rewrite LB, <- EL in E2.
  assert (E3 : octets_bits_lsb (xor_front D m2) = xor_bits (octets_bits_lsb D) (firstn d (octets_bits_lsb m2)) ++ skipn d (octets_bits_lsb m2)).
  { rewrite xor_front_bits by (rewrite LD; clear - HL; lia). rewrite LD. replace (8 * (d / 8)) with d by (clear - H64; lia). reflexivity. }
  rewrite <- E3 in E2. rewrite E2, function_is. reflexivity.
Qed.

(** The same second digest for another pair of messages. *)
Lemma xor_front_length x m : length x <= length m -> length (xor_front x m) = length m.
Proof. intros H. unfold xor_front. rewrite app_length, map_length, combine_length, skipn_length. lia. Qed.
Lemma xor_front_fits x m : Forall (fits 8) x -> Forall (fits 8) m -> Forall (fits 8) (xor_front x m).
Proof. intros A B. unfold xor_front. apply Forall_app. split; [now apply combine_fits|now apply skipn_fit]. Qed.
Lemma xor_front_twice x : forall m, length x <= length m -> xor_front x (xor_front x m) = m.
Proof.
  induction x as [|a x IH]; intros m H; [reflexivity|]. destruct m as [|b m]; [cbn in H; lia|].
  unfold xor_front in *. cbn [length combine map app fst snd skipn] in *. rewrite IH by lia. f_equal.
  now rewrite <- N.lxor_assoc, N.lxor_nilpotent, N.lxor_0_l.
Qed.
Lemma function_fits d sfx m : Forall (fits 8) (sponge_function d sfx m).
Proof. unfold sponge_function, bits_octets_lsb. apply words_of_stream_fits. Qed.
Lemma function_length d sfx m : sponge_size d -> length (sponge_function d sfx m) = d / 8.
Proof.
  intros Hd. destruct (sponge_side d Hd) as (Hbw & _). pose proof (keccak_words_bits d Hd) as Hr. symmetry in Hr.
  rewrite <- function_is. unfold digest_of, bits_octets_lsb. rewrite words_of_stream_length. f_equal.
  apply squeezed_length; [rewrite Hr; clear - Hbw; lia|]. apply (absorbed_length d (keccak_words d) Hbw Hr), repeat_length.
Qed.
Theorem reused_collides d injb o sfx i m1 m1' m2 : sponge_size d -> sponge_object_of d injb o sfx ->
  injector_contract BOLB 64 (keccak_words d) injb ->
  Forall (fits 8) m1 -> Forall (fits 8) m1' -> Forall (fits 8) m2 ->
  (N.of_nat (8 * length m1) < 2 ^ 64)%N -> (N.of_nat (8 * length m1') < 2 ^ 64)%N -> (N.of_nat (8 * length m2) < 2 ^ 64)%N ->
  d mod 64 = 0 -> 3 * d <= 1600 -> d <= 8 * length m2 ->
  exists m2' a a' b, length m2' = length m2 /\
  object_calls o (fun s => s) nothing (New i :: sponge_hash_calls d i m1 ++ sponge_hash_calls d i m2) = Some [(i, a); (i, b)] /\
  object_calls o (fun s => s) nothing (New i :: sponge_hash_calls d i m1' ++ sponge_hash_calls d i m2') = Some [(i, a'); (i, b)].
Proof.
  intros Hd HO HI F1 F1' F2 L1 L1' L2 H64 H3 HL.
  set (f := sponge_function d sfx). set (y := xor_front (f m1) m2).
  assert (Ly : length y = length m2) by (apply xor_front_length; unfold f; rewrite function_length by exact Hd; clear - HL; lia).
  assert (Lf : length (f m1') <= length y) by (rewrite Ly; unfold f; rewrite function_length by exact Hd; clear - HL; lia).
  exists (xor_front (f m1') y), (f m1), (f m1'), (f y).
  assert (LZ : length (xor_front (f m1') y) = length m2) by (rewrite xor_front_length by exact Lf; exact Ly).
  split; [exact LZ|]. split.
  - exact (sponge_reused d injb o sfx i m1 m2 Hd HO HI F1 F2 L1 L2 H64 H3 HL).
  - rewrite (sponge_reused d injb o sfx i m1' (xor_front (f m1') y) Hd HO HI F1'); try assumption; try (rewrite LZ; assumption).
    + fold f. rewrite xor_front_twice by exact Lf. reflexivity.
    + apply xor_front_fits; [apply function_fits|]. apply xor_front_fits; [apply function_fits|exact F2].
Qed.
