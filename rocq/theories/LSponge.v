(** The sponge construction with the Keccak and SHA-3 paddings. *)
From Coq Require Import NArith Arith List Bool Lia ZifyBool ZifyNat ZifyN ZArith.
From Verif Require Import SpecStream LStream MPack LInj MAcc LAcc LMD MConstr SpecKeccak MKeccak LKeccakF LKeccakP.
Import ListNotations.
Ltac Zify.zify_post_hook ::= Z.div_mod_to_equations.

#[local] Opaque keccak_f.

(** ** Octet-wise bit reversal *)
Definition lsb (s : list bool) : list bool := octets_bits_lsb (bits_octets s).

Lemma lsb_length s : length s mod 8 = 0 -> length (lsb s) = length s.
Proof.
  intros H. unfold lsb, octets_bits_lsb, bits_octets. rewrite stream_length, words_of_stream_length. lia.
Qed.

Lemma lsb_app a b : length a mod 8 = 0 -> lsb (a ++ b) = lsb a ++ lsb b.
Proof.
  intros H. unfold lsb, octets_bits_lsb, bits_octets.
  rewrite words_of_stream_app, stream_app by (auto; lia). reflexivity.
Qed.

Lemma word_stream_LOLB8 os : stream LOLB 8 os = flat_map (fun x => rev (word_stream BOBB 8 x)) os.
Proof.
  unfold stream. apply flat_map_ext. intros x. unfold word_stream. rewrite <- map_rev.
  change (rev (seq 0 8)) with [7; 6; 5; 4; 3; 2; 1; 0]. reflexivity.
Qed.

Lemma nth_lsb s i : length s mod 8 = 0 -> i < length s ->
  nth i (lsb s) false = nth (8 * (i / 8) + (7 - i mod 8)) s false.
Proof.
  intros H Hi. unfold lsb, octets_bits_lsb, bits_octets.
  set (os := words_of_stream BOBB 8 s).
  assert (E : s = stream BOBB 8 os) by (symmetry; apply stream_words_of_stream; auto; lia).
  assert (L : length os = length s / 8) by apply words_of_stream_length.
  rewrite E at 1. rewrite !nth_stream by lia.
  cbn [bitpos]. replace ((8 * (i / 8) + (7 - i mod 8)) / 8) with (i / 8) by lia.
  do 2 f_equal. lia.
Qed.

Lemma stream_BOLB w ws : w mod 8 = 0 -> 0 < w -> stream BOLB w ws = lsb (stream BOBB w ws).
Proof.
  intros Hw Hp.
  assert (L : length (stream BOBB w ws) mod 8 = 0).
  { rewrite stream_length, <- Nat.mul_mod_idemp_l, Hw by lia. reflexivity. }
  apply nth_ext with (d := false) (d' := false).
  { rewrite lsb_length by auto. now rewrite !stream_length. }
  intros i Hi. rewrite stream_length in Hi.
  rewrite nth_lsb by (auto; rewrite stream_length; lia).
  assert (W : w = 8 * (w / 8)) by lia. set (k := w / 8) in *.
  assert (8 * (i / 8) + (7 - i mod 8) < w * length ws).
  { assert (i / 8 < k * length ws) by nia. nia. }
  rewrite !nth_stream by lia.
  assert (Q : i / w = i / 8 / k) by (rewrite W, Nat.div_div by lia; reflexivity).
  assert (R : i mod w = i mod 8 + 8 * ((i / 8) mod k)) by (rewrite W; apply Nat.mod_mul_r; lia).
  assert (Q' : (8 * (i / 8) + (7 - i mod 8)) / w = i / 8 / k).
  { rewrite W, <- Nat.div_div by lia. f_equal. lia. }
  assert (R' : (8 * (i / 8) + (7 - i mod 8)) mod w = (7 - i mod 8) + 8 * ((i / 8) mod k)).
  { rewrite W, Nat.mod_mul_r by lia. f_equal; [lia|]. f_equal. f_equal. lia. }
  rewrite Q, Q', R, R'. do 2 f_equal. cbn [bitpos].
  assert ((i / 8) mod k < k) by (apply Nat.mod_upper_bound; lia). lia.
Qed.

Lemma lsb_firstn n s : n mod 8 = 0 -> length s mod 8 = 0 -> n <= length s ->
  lsb (firstn n s) = firstn n (lsb s).
Proof.
  intros Hn Hs Hl. rewrite <- (firstn_skipn n s) at 2.
  rewrite lsb_app by (rewrite firstn_length, Nat.min_l by lia; auto).
  symmetry. apply firstn_app_exact. rewrite lsb_length; rewrite firstn_length, Nat.min_l by lia; auto.
Qed.

Lemma lsb_chunks r bs : 0 < r -> r mod 8 = 0 -> Forall (fun b => length b = r) bs ->
  chunks r (lsb (concat bs)) = map lsb bs.
Proof.
  intros Hr H8 HF. induction HF as [|b bs Hb HF IH]; [apply chunks_nil|].
  cbn [concat map]. rewrite lsb_app by (rewrite Hb; auto).
  rewrite chunks_cons by (auto; rewrite lsb_length; rewrite Hb; auto). now rewrite IH.
Qed.

Lemma lsb_octets os : Forall (fits 8) os -> lsb (octets_bits os) = octets_bits_lsb os.
Proof. intros. unfold lsb. now rewrite bits_octets_bits. Qed.

Lemma bits_octets_lsb_lsb s : length s mod 8 = 0 -> bits_octets_lsb (lsb s) = bits_octets s.
Proof.
  intros. unfold bits_octets_lsb, lsb, octets_bits_lsb. apply words_of_stream_stream; auto; try lia.
  apply words_of_stream_fits.
Qed.

Lemma words_of_stream_firstn e w k s : 0 < w -> w * k <= length s ->
  firstn k (words_of_stream e w s) = words_of_stream e w (firstn (w * k) s).
Proof.
  intros Hw H. rewrite <- (firstn_skipn (w * k) s) at 1.
  rewrite words_of_stream_app by (auto; rewrite firstn_length, Nat.min_l by lia; rewrite Nat.mul_comm; apply Nat.mod_mul; lia).
  apply firstn_app_exact. rewrite words_of_stream_length, firstn_length, Nat.min_l, Nat.mul_comm by lia.
  apply Nat.div_mul. lia.
Qed.

(** ** Padding *)
Section Pad.
Context (injb : injector) (bw : nat) (HI : injector_contract BOLB 64 bw injb).
Notation bb := (64 * bw).

Lemma word1_stream e x : stream e 64 [x] = word_stream e 64 x.
Proof. unfold stream. cbn [flat_map]. apply app_nil_r. Qed.

Lemma fits64_lit x : (x <? 2 ^ 64)%N = true -> Forall (fits 64) [x].
Proof. intros. repeat constructor. unfold fits. change (N.of_nat 64) with 64%N. lia. Qed.

Lemma tail_padding b0 seen0 (sfx : list bool) src b :
  length sfx < 64 -> Forall (fits 64) [src] -> firstn (length sfx) (word_stream BOLB 64 src) = sfx ->
  b0 = b -> block_ok 64 bw b -> seen0 + length sfx < bb ->
  exists b3,
    match inject injb 64 bw [src] (length sfx) b0 seen0 0 with
    | None => None
    | Some b1 =>
      let seen1 := seen0 + length sfx in
      match inject injb 64 bw (repeat 0%N bw) (bb - 1 - seen1) b1 seen1 0 with
      | None => None
      | Some b2 =>
        let seen2 := seen1 + (bb - 1 - seen1) in
        match inject injb 64 bw [N.shiftr (high_ones 64 1) 7] 1 b2 seen2 0 with
        | None => None
        | Some b3 => Some (b3, true)
        end
      end
    end = Some (b3, true) /\ block_ok 64 bw b3 /\
    stream BOLB 64 b3 = firstn seen0 (stream BOLB 64 b) ++ sfx ++
                        repeat false (bb - 1 - (seen0 + length sfx)) ++ [true].
Proof.
  intros Hl Hsrc Hsfx -> Hb Hs. set (n := length sfx) in *.
  assert (W8 : 64 mod 8 = 0) by reflexivity.
  destruct (inject_some BOLB 64 bw injb W8 ltac:(lia) HI [src] n b seen0 0) as (b1 & E1 & Hb1 & S1);
    auto; cbn [length]; try lia.
  rewrite E1. cbv zeta.
  destruct (inject_some BOLB 64 bw injb W8 ltac:(lia) HI (repeat 0%N bw) (bb - 1 - (seen0 + n)) b1 (seen0 + n) 0)
    as (b2 & E2 & Hb2 & S2); auto; rewrite ?repeat_length; try lia.
  { apply (block_ok_zeros 64 bw). }
  rewrite E2.
  set (seen2 := seen0 + n + (bb - 1 - (seen0 + n))) in *.
  assert (Es2 : seen2 = bb - 1) by lia.
  destruct (inject_fill BOLB 64 bw injb W8 ltac:(lia) HI [N.shiftr (high_ones 64 1) 7] 1 b2 seen2 0)
    as (b3 & E3 & Hb3 & S3); auto; cbn [length]; try lia.
  { now apply fits64_lit. }
  rewrite E3. exists b3. split; [reflexivity|]. split; [auto|].
  rewrite S3, S2, S1. cbn [skipn]. rewrite !word1_stream, Hsfx, stream_zeros, firstn_repeat by lia.
  rewrite <- !app_assoc. do 3 f_equal.
Qed.

Lemma keccak_padding_spec b seen : block_ok 64 bw b -> seen + 2 <= bb ->
  exists b3, keccak_padding injb 64 bw b seen = Some (b3, true) /\ block_ok 64 bw b3 /\
    stream BOLB 64 b3 = firstn seen (stream BOLB 64 b) ++ [] ++ [true] ++
                        repeat false (bb - 2 - (seen + 0)) ++ [true].
Proof.
  intros Hb Hs. unfold keccak_padding. destruct (1 <? bb - seen) eqn:E; [|lia].
  destruct (tail_padding b seen [true] (N.shiftr (high_ones 64 1) 7) b) as (b3 & E3 & Hb3 & S3); auto;
    cbn [length]; try lia.
  { now apply fits64_lit. }
  exists b3. split; [exact E3|]. split; [auto|]. rewrite S3. cbn [length app].
  replace (bb - 1 - (seen + 1)) with (bb - 2 - (seen + 0)) by lia. reflexivity.
Qed.

Lemma sha3_padding_spec b seen : block_ok 64 bw b -> seen + 4 <= bb ->
  exists b3, sha3_padding injb 64 bw b seen = Some (b3, true) /\ block_ok 64 bw b3 /\
    stream BOLB 64 b3 = firstn seen (stream BOLB 64 b) ++ [false; true] ++ [true] ++
                        repeat false (bb - 2 - (seen + 2)) ++ [true].
Proof.
  intros Hb Hs. unfold sha3_padding. destruct (3 <? bb - seen) eqn:E; [|lia].
  destruct (tail_padding b seen [false; true; true] (N.shiftr (high_ones 64 2) 5) b) as (b3 & E3 & Hb3 & S3); auto;
    cbn [length]; try lia.
  { now apply fits64_lit. }
  exists b3. split; [exact E3|]. split; [auto|]. rewrite S3. cbn [length app].
  replace (bb - 1 - (seen + 3)) with (bb - 2 - (seen + 2)) by lia. reflexivity.
Qed.
End Pad.

(** ** The construction *)
Section Sponge.
Context (perm : list N -> list N) (HP : perm_correct perm).
Context (bw d : nat) (sfx : list bool).
Context (padding : list N -> nat -> option (list N * bool)) (plast : list N -> nat -> option (list N)).
Notation bb := (64 * bw).
Context (Hbw : 0 < bw <= 25) (Hd8 : d mod 8 = 0) (Hd : d + 64 <= 1600) (Hdw : d / bb * bw + bw <= 25).
Context (Hsfx : length sfx + 2 <= 8).
Context (Hpad : forall b seen, block_ok 64 bw b -> seen + (length sfx + 2) <= bb ->
  exists b3, padding b seen = Some (b3, true) /\ block_ok 64 bw b3 /\
    stream BOLB 64 b3 = firstn seen (stream BOLB 64 b) ++ sfx ++ [true] ++
                        repeat false (bb - 2 - (seen + length sfx)) ++ [true]).

Notation C := (sponge_construction BOBB 64 bw (d / 8) (repeat 0%N 25) (keccak_process_block perm)
                 padding plast (keccak_finalizer perm bw d)).

Lemma sponge_wf : wf_construction C.
Proof. constructor; cbn; auto; lia. Qed.

Definition sponge_out (M : list bool) : list N :=
  bits_octets_lsb (keccak_sponge bb (lsb M ++ sfx) d).

Lemma bb8 : bb mod 8 = 0.
Proof. lia. Qed.

Lemma absorb_string bs : forall s cnt, block_ok 64 25 s -> Forall (fun b => length b = bb) bs ->
  block_ok 64 25 (absorb C s cnt bs) /\
  stream BOLB 64 (absorb C s cnt bs) = fold_left (absorb_block bb) (map lsb bs) (stream BOLB 64 s).
Proof.
  induction bs as [|b bs IH]; intros s cnt Hs HF; [now split|].
  inversion HF as [|? ? Hb HF']; subst. cbn [absorb map fold_left].
  cbn [c_proc sponge_construction c_endian c_word].
  assert (Hw : block_ok 64 bw (words_of_stream BOBB 64 b)) by (apply block_ok_words; auto; lia).
  destruct (process_block_string perm HP bw s (words_of_stream BOBB 64 b)) as [K1 K2]; auto; try lia.
  destruct (IH (keccak_process_block perm s (words_of_stream BOBB 64 b)) (cnt + N.of_nat (block_bits C))%N K1 HF')
    as [I1 I2].
  split; [exact I1|]. rewrite I2, K2.
  rewrite (stream_BOLB 64 (words_of_stream BOBB 64 b)) by (auto; lia).
  rewrite (block_stream_words BOBB 64 bw) by (auto; lia). reflexivity.
Qed.

Lemma zeros_ok : block_ok 64 25 (repeat 0%N 25).
Proof. apply block_ok_zeros. Qed.

Lemma absorbed_string M0 : length M0 mod bb = 0 ->
  block_ok 64 25 (absorbed C M0) /\
  stream BOLB 64 (absorbed C M0) = sponge_absorb bb (lsb M0).
Proof.
  intros HM. unfold absorbed. change (block_bits C) with bb.
  assert (HF : Forall (fun b => length b = bb) (chunks bb M0)) by (apply chunks_Forall; lia).
  destruct (absorb_string (chunks bb M0) (repeat 0%N 25) 0%N zeros_ok HF) as [H1 H2].
  split; [exact H1|]. cbn [c_init sponge_construction]. rewrite H2.
  unfold sponge_absorb. rewrite <- (lsb_chunks bb) by (auto; try apply bb8; lia).
  rewrite chunks_concat by (auto; lia). now rewrite stream_zeros.
Qed.

Lemma sponge_absorb_snoc P Q : length P mod bb = 0 -> length Q = bb ->
  sponge_absorb bb (P ++ Q) = absorb_block bb (sponge_absorb bb P) Q.
Proof.
  intros. unfold sponge_absorb. rewrite chunks_snoc, fold_left_app by (auto; lia). reflexivity.
Qed.

(** Squeezing. *)
Lemma squeeze_blocks_string n : forall s, block_ok 64 25 s ->
  let '(ws, s') := squeeze_blocks perm bw n s in
  block_ok 64 25 s' /\ length ws = n * bw /\
  forall k, sponge_squeeze bb (n + k) (stream BOLB 64 s) =
            stream BOLB 64 ws ++ sponge_squeeze bb k (stream BOLB 64 s').
Proof.
  induction n as [|n IH]; intros s Hs; cbn [squeeze_blocks].
  - split; [auto|]. split; auto.
  - specialize (IH (swapped_permute perm s) (swapped_permute_ok perm HP s Hs)).
    destruct (squeeze_blocks perm bw n (swapped_permute perm s)) as [ws s'].
    destruct IH as (I1 & I2 & I3). split; [auto|]. split.
    + rewrite app_length, firstn_length, I2. destruct Hs. lia.
    + intros k. cbn [Nat.add sponge_squeeze]. rewrite <- (swapped_permute_string perm HP) by auto.
      rewrite I3, stream_app, app_assoc. f_equal. f_equal. apply stream_firstn.
Qed.

Lemma finalizer_string s : block_ok 64 25 s ->
  length (keccak_finalizer perm bw d s) = 25 /\
  firstn d (stream BOLB 64 (keccak_finalizer perm bw d s)) =
  firstn d (sponge_squeeze bb (S (d / bb)) (stream BOLB 64 s)).
Proof.
  intros Hs. unfold keccak_finalizer.
  pose proof (squeeze_blocks_string (d / bb) s Hs) as Q.
  set (nb := d / bb) in *.
  destruct (squeeze_blocks perm bw nb s) as [ws s'] eqn:E. destruct Q as (I1 & I2 & I3).
  set (lw := (d mod bb) / 64 + (if (d mod bb) mod 64 =? 0 then 0 else 1)).
  assert (Hlw : d mod bb <= 64 * lw /\ lw <= bw).
  { assert (d mod bb < bb) by (apply Nat.mod_upper_bound; lia). unfold lw. generalize dependent (d mod bb).
    intros m Hm. destruct (m mod 64 =? 0) eqn:Em; lia. }
  assert (Lf : length (firstn lw s') = lw) by (rewrite firstn_length; destruct I1; lia).
  split.
  - rewrite app_length, repeat_length, app_length, Lf, I2. nia.
  - replace (S nb) with (nb + 1) by lia. rewrite I3. cbn [sponge_squeeze]. rewrite app_nil_r.
    rewrite !stream_app, <- app_assoc.
    assert (Ed : d = nb * bb + d mod bb) by (unfold nb; rewrite Nat.mul_comm; apply Nat.div_mod; lia).
    assert (Lw : length (stream BOLB 64 ws) = nb * bb) by (rewrite stream_length, I2; lia).
    rewrite !firstn_app, Lw. f_equal.
    replace (d - nb * bb) with (d mod bb) by lia.
    assert (Ls : length (stream BOLB 64 (firstn lw s')) = 64 * lw) by (rewrite stream_length; lia).
    rewrite Ls. replace (d mod bb - 64 * lw) with 0 by lia. cbn [firstn]. rewrite app_nil_r.
    rewrite <- stream_firstn, !firstn_firstn. f_equal. lia.
Qed.

(** From the last partial block to the digest: [T] is what of the message is pending, [B] what the sponge finds in its place. *)
Lemma sponge_finish_bits s block M1 n :
  block_ok 64 25 s -> block_ok 64 bw block -> length M1 mod bb = 0 -> n + (length sfx + 2) <= bb ->
  stream BOLB 64 s = sponge_absorb bb (lsb M1) ->
  match padding block n with
  | None => None
  | Some (b1, is_last) =>
      let s2 := keccak_process_block perm s b1 in
      let s3 :=
        if is_last then Some s2
        else match plast (repeat 0%N bw) n with
             | None => None
             | Some b2 => Some (keccak_process_block perm s2 b2)
             end in
      match s3 with
      | None => None
      | Some s3 => Some (firstn (d / 8) (pack_from BOBB 64 8 (keccak_finalizer perm bw d s3)))
      end
  end = Some (bits_octets_lsb (keccak_sponge bb ((lsb M1 ++ firstn n (stream BOLB 64 block)) ++ sfx) d)).
Proof.
  intros Hs Hb HM HT2 Es.
  destruct (Hpad block n Hb HT2) as (b1 & E1 & Hb1 & S1). rewrite E1. cbv zeta iota.
  destruct (process_block_string perm HP bw s b1) as [K1 K2]; auto; try lia.
  set (s2 := keccak_process_block perm s b1) in *.
  destruct (finalizer_string s2 K1) as [Lf F].
  assert (H8 : length (stream BOBB 64 (keccak_finalizer perm bw d s2)) = 1600)
    by (rewrite stream_length; lia).
  f_equal. unfold pack_from, pack.
  rewrite words_of_stream_firstn by (try lia; rewrite H8; lia).
  replace (8 * (d / 8)) with d by lia.
  change (words_of_stream BOBB 8 (firstn d (stream BOBB 64 (keccak_finalizer perm bw d s2))))
    with (bits_octets (firstn d (stream BOBB 64 (keccak_finalizer perm bw d s2)))).
  rewrite <- bits_octets_lsb_lsb by (rewrite firstn_length, H8, Nat.min_l by lia; exact Hd8).
  rewrite lsb_firstn by (auto; rewrite H8; (reflexivity || lia)).
  rewrite <- stream_BOLB by (auto; lia). rewrite F. f_equal. unfold keccak_sponge. do 2 f_equal.
  rewrite K2, Es.
  assert (HM8 : length M1 mod 8 = 0).
  { apply Nat.div_exact in HM; [|lia]. rewrite HM. rewrite <- Nat.mul_assoc. lia. }
  set (T := firstn n (stream BOLB 64 block)) in *.
  assert (LT : length T = n).
  { unfold T. rewrite firstn_length, (block_stream_length BOLB 64 bw) by auto. apply Nat.min_l. lia. }
  assert (LM : length (lsb M1) = length M1) by now apply lsb_length.
  assert (EP : (lsb M1 ++ T) ++ sfx ++ pad10star1 bb (length ((lsb M1 ++ T) ++ sfx)) =
               lsb M1 ++ stream BOLB 64 b1).
  { rewrite S1, <- !app_assoc. do 3 f_equal. unfold pad10star1. do 2 f_equal. f_equal.
    rewrite !app_length, LT, LM.
    assert (EM : length M1 = bb * (length M1 / bb)) by (apply Nat.div_exact; lia).
    assert (length M1 + (n + length sfx) + 2 = (n + length sfx + 2) + (length M1 / bb) * bb) as -> by lia.
    rewrite Nat.mod_add by lia.
    destruct (Nat.eq_dec (n + length sfx + 2) bb) as [Z|Z].
    + rewrite Z, (Nat.mod_same bb) by lia. rewrite Nat.sub_0_r, (Nat.mod_same bb) by lia. lia.
    + rewrite (Nat.mod_small (n + length sfx + 2)) by lia. rewrite Nat.mod_small by lia. lia. }
  rewrite <- (app_assoc _ sfx), EP. rewrite sponge_absorb_snoc; auto.
  - now rewrite LM.
  - apply (block_stream_length BOLB 64 bw); auto.
Qed.

(** The pending bits and those found in their place. *)
Lemma pending_bits block T : block_ok 64 bw block -> firstn (length T) (stream BOBB 64 block) = T -> length T <= bb ->
  length T mod 8 = 0 -> firstn (length T) (stream BOLB 64 block) = lsb T.
Proof.
  intros Hb Hh HTl HT. rewrite stream_BOLB by (auto; lia). rewrite <- lsb_firstn; auto.
  - now rewrite Hh.
  - rewrite (block_stream_length BOBB 64 bw) by auto. apply bb8.
  - rewrite (block_stream_length BOBB 64 bw) by auto. lia.
Qed.

Lemma sponge_finish s block M1 T :
  block_ok 64 25 s -> block_ok 64 bw block -> firstn (length T) (stream BOBB 64 block) = T ->
  length M1 mod bb = 0 -> length T mod 8 = 0 -> length T < bb ->
  stream BOLB 64 s = sponge_absorb bb (lsb M1) ->
  match padding block (length T) with
  | None => None
  | Some (b1, is_last) =>
      let s2 := keccak_process_block perm s b1 in
      let s3 :=
        if is_last then Some s2
        else match plast (repeat 0%N bw) (length T) with
             | None => None
             | Some b2 => Some (keccak_process_block perm s2 b2)
             end in
      match s3 with
      | None => None
      | Some s3 => Some (firstn (d / 8) (pack_from BOBB 64 8 (keccak_finalizer perm bw d s3)))
      end
  end = Some (sponge_out (M1 ++ T)).
Proof.
  intros Hs Hb Hh HM HT HTl Es.
  assert (HM8 : length M1 mod 8 = 0).
  { apply Nat.div_exact in HM; [|lia]. rewrite HM. rewrite <- Nat.mul_assoc. lia. }
  unfold sponge_out. rewrite lsb_app by auto. rewrite <- (pending_bits block T) by (auto; lia).
  apply sponge_finish_bits; auto. lia.
Qed.

(** The state of an accumulator that holds [M], the block pending in it, and the bits pending. *)
Lemma sponge_result a M : weakR C a M -> short M ->
  exists s M1 T, M = M1 ++ T /\ length M1 mod bb = 0 /\ length T < bb /\
    block_ok 64 25 s /\ stream BOLB 64 s = sponge_absorb bb (lsb M1) /\
    block_ok 64 bw (cache a) /\ firstn (length T) (stream BOBB 64 (cache a)) = T /\
    acc_result C a =
    match padding (cache a) (length T) with
    | None => None
    | Some (b1, is_last) =>
        let s2 := keccak_process_block perm s b1 in
        let s3 :=
          if is_last then Some s2
          else match plast (repeat 0%N bw) (length T) with
               | None => None
               | Some b2 => Some (keccak_process_block perm s2 b2)
               end in
        match s3 with
        | None => None
        | Some s3 => Some (firstn (d / 8) (pack_from BOBB 64 8 (keccak_finalizer perm bw d s3)))
        end
    end.
Proof.
  intros (M0 & T & -> & R & F) Hshort. destruct R.
  assert (Hbb : 0 < bb) by lia.
  unfold acc_result. cbn [c_digest sponge_construction]. unfold sponge_digest.
  rewrite rf_total, (count_short _ Hshort), rf_state.
  change (block_bits C) with bb in *. change (c_endian C) with BOBB in *. change (c_word C) with 64 in *.
  change (c_words C) with bw in *.
  assert (Eseen : N.to_nat (blen (M0 ++ T) mod N.of_nat bb) = length (M0 ++ T) mod bb).
  { unfold blen. rewrite <- Nnat.Nat2N.inj_mod. apply Nnat.Nat2N.id. }
  rewrite Eseen.
  assert (Emod : length (M0 ++ T) mod bb = length T mod bb).
  { rewrite app_length, <- Nat.add_mod_idemp_l, rf_M0 by lia. reflexivity. }
  rewrite Emod.
  assert (HM8 : length M0 mod 8 = 0).
  { pose proof rf_M0 as HM. apply Nat.div_exact in HM; [|lia]. rewrite HM. rewrite <- Nat.mul_assoc. lia. }
  destruct (absorbed_string M0 rf_M0) as [A1 A2].
  destruct (Nat.eq_dec (length T) bb) as [ET|ET].
  - assert (E0 : length T mod bb = 0) by (rewrite ET; apply Nat.mod_same; lia).
    rewrite E0.
    assert (Hnz : (blen (M0 ++ T) =? 0)%N = false).
    { unfold blen. rewrite app_length. lia. }
    rewrite Hnz. cbn [negb andb Nat.eqb].
    assert (EC : stream BOBB 64 (cache a) = T).
    { rewrite <- rf_head, ET. symmetry. apply firstn_all2.
      rewrite (block_stream_length BOBB 64 bw) by auto. lia. }
    destruct (process_block_string perm HP bw (absorbed C M0) (cache a)) as [K1 K2]; auto; try lia.
    exists (keccak_process_block perm (absorbed C M0) (cache a)), (M0 ++ T), [].
    split; [symmetry; apply app_nil_r|]. split; [rewrite app_length, ET, <- Nat.add_mod_idemp_l, rf_M0 by lia; apply Nat.mod_same; lia|].
    split; [exact Hbb|]. split; [exact K1|]. split.
    + rewrite K2, A2, lsb_app by auto. rewrite stream_BOLB by (auto; lia). rewrite EC.
      symmetry. apply sponge_absorb_snoc.
      * now rewrite lsb_length.
      * rewrite lsb_length; [exact ET|rewrite ET; apply bb8].
    + split; [exact rf_cache|]. split; reflexivity.
  - assert (Hlt : length T < bb) by lia.
    rewrite (Nat.mod_small (length T)) by auto.
    assert (Hc : negb (blen (M0 ++ T) =? 0)%N && (length T =? 0) = false).
    { destruct (length T =? 0) eqn:EZ; [|now rewrite andb_false_r].
      destruct T; [|discriminate]. rewrite rf_nil by auto. reflexivity. }
    rewrite Hc. exists (absorbed C M0), M0, T. repeat (split; [assumption || reflexivity|]). reflexivity.
Qed.

Lemma sponge_digest_correct : digest_correct C (fun M => length M mod 8 = 0) sponge_out.
Proof.
  intros a M HR Hshort H8. destruct (sponge_result a M HR Hshort) as (s & M1 & T & -> & HM & HT & Hs & Es & Hb & Hh & ->).
  apply sponge_finish; auto.
  assert (HM8 : length M1 mod 8 = 0).
  { apply Nat.div_exact in HM; [|lia]. rewrite HM. rewrite <- Nat.mul_assoc. lia. }
  rewrite app_length in H8. lia.
Qed.
End Sponge.
