(** The permutation on strings, byte-reversed storage, and block absorption. *)
From Coq Require Import NArith Arith List Bool Lia ZifyBool ZifyNat ZifyN ZArith.
From Verif Require Import SpecStream LStream MPack LInj MAcc MConstr SpecKeccak MKeccak LKeccakF.
Import ListNotations.
Ltac Zify.zify_post_hook ::= Z.div_mod_to_equations.

Lemma round_string st c ir : block_ok 64 25 st ->
  (forall z, z < 64 -> N.testbit c (N.of_nat z) = RC ir z) ->
  stream LOLB 64 (keccak_round st c) = Rnd ir (stream LOLB 64 st).
Proof.
  intros Hst HRC. apply nth_ext with (d := false) (d' := false).
  - unfold Rnd. rewrite to_string_length, stream_length. reflexivity.
  - intros i Hi. rewrite stream_length in Hi. change (length (keccak_round st c)) with 25 in Hi.
    unfold Rnd. rewrite nth_to_string by lia.
    rewrite nth_stream by (change (length (keccak_round st c)) with 25; lia).
    cbn [bitpos]. rewrite (round_bits st c ir) by (auto; lia).
    f_equal. lia.
Qed.

Lemma round_constants_RC : forall ir, ir < 24 -> forall z, z < 64 ->
  N.testbit (nth ir round_constants 0%N) (N.of_nat z) = RC ir z.
Proof.
  assert (H : forallb (fun ir => forallb (fun z => Bool.eqb
     (N.testbit (nth ir round_constants 0%N) (N.of_nat z)) (RC ir z)) (seq 0 64)) (seq 0 24) = true)
    by (vm_compute; reflexivity).
  intros ir Hir z Hz. rewrite forallb_forall in H.
  specialize (H ir). rewrite in_seq, forallb_forall in H.
  apply eqb_prop. apply H; [lia|]. apply in_seq. lia.
Qed.

Lemma round_constants_fits : Forall (fits 64) round_constants.
Proof. repeat constructor. Qed.

Lemma permute_ok st : block_ok 64 25 st -> block_ok 64 25 (permute st).
Proof.
  unfold permute. pose proof round_constants_fits as H. revert st.
  induction H as [|c cs Hc Hcs IH]; intros st Hst; cbn [fold_left]; auto.
  apply IH. apply keccak_round_fits; auto. apply Hst.
Qed.

Lemma permute_from st : forall cs n, block_ok 64 25 st -> Forall (fits 64) cs ->
  (forall i, i < length cs -> forall z, z < 64 -> N.testbit (nth i cs 0%N) (N.of_nat z) = RC (n + i) z) ->
  stream LOLB 64 (fold_left keccak_round cs st) =
  fold_left (fun S ir => Rnd ir S) (seq n (length cs)) (stream LOLB 64 st).
Proof.
  intros cs. revert st. induction cs as [|c cs IH]; intros st n Hst HF H; [reflexivity|].
  inversion HF; subst. cbn [fold_left length seq]. rewrite (IH _ (S n)); auto.
  - f_equal. apply round_string; auto. intros z Hz. specialize (H 0 ltac:(cbn; lia) z Hz).
    cbn [nth] in H. rewrite Nat.add_0_r in H. exact H.
  - apply keccak_round_fits; auto. apply Hst.
  - intros i Hi z Hz. specialize (H (S i) ltac:(cbn; lia) z Hz). cbn [nth] in H.
    rewrite H. f_equal. lia.
Qed.

Lemma permute_string st : block_ok 64 25 st ->
  stream LOLB 64 (permute st) = keccak_f (stream LOLB 64 st).
Proof.
  intros Hst. unfold permute, keccak_f.
  rewrite (permute_from st round_constants 0); auto.
  - apply round_constants_fits.
  - intros i Hi. apply round_constants_RC. exact Hi.
Qed.

Lemma bswap_fits x : fits 64 (bswap64 x).
Proof. apply stream_word_fits. Qed.

Lemma bswap_bit x j : j < 64 ->
  N.testbit (bswap64 x) (N.of_nat j) = N.testbit x (N.of_nat (8 * (7 - j / 8) + j mod 8)).
Proof.
  intros Hj. unfold bswap64. rewrite testbit_stream_word by auto.
  rewrite nth_word_stream by (unfold bitpos; lia). do 2 f_equal. unfold bitpos. lia.
Qed.

Lemma bswap_stream1 st : stream LOLB 64 (map bswap64 st) = stream BOLB 64 st.
Proof.
  induction st as [|x st IH]; [reflexivity|]. cbn [map]. rewrite !stream_cons, IH. f_equal.
  unfold word_stream. apply map_ext_in. intros i Hi. apply in_seq in Hi.
  rewrite bswap_bit by (unfold bitpos; lia). do 2 f_equal. unfold bitpos. lia.
Qed.

Lemma bswap_stream2 st : stream BOLB 64 (map bswap64 st) = stream LOLB 64 st.
Proof.
  induction st as [|x st IH]; [reflexivity|]. cbn [map]. rewrite !stream_cons, IH. f_equal.
  unfold word_stream. apply map_ext_in. intros i Hi. apply in_seq in Hi.
  rewrite bswap_bit by (unfold bitpos; lia). do 2 f_equal. unfold bitpos. lia.
Qed.

Lemma map_bswap_ok n st : length st = n -> block_ok 64 n (map bswap64 st).
Proof.
  intros. split; [now rewrite map_length|]. apply Forall_map, Forall_forall. intros. apply bswap_fits.
Qed.

(** The permutation, whatever implementation is selected, computes Keccak-f on states. *)
Definition perm_correct (perm : list N -> list N) : Prop :=
  forall st, block_ok 64 25 st -> perm st = permute st.

Section Perm.
Context (perm : list N -> list N) (HP : perm_correct perm).

Lemma swapped_permute_ok st : block_ok 64 25 st -> block_ok 64 25 (swapped_permute perm st).
Proof.
  intros [L _]. unfold swapped_permute. apply map_bswap_ok.
  rewrite HP by now apply map_bswap_ok. apply permute_ok. now apply map_bswap_ok.
Qed.

Lemma swapped_permute_string st : block_ok 64 25 st ->
  stream BOLB 64 (swapped_permute perm st) = keccak_f (stream BOLB 64 st).
Proof.
  intros [L _]. unfold swapped_permute. rewrite bswap_stream2.
  rewrite HP by now apply map_bswap_ok.
  rewrite permute_string by now apply map_bswap_ok. now rewrite bswap_stream1.
Qed.

Lemma xor_bits_app a b c d : length a = length c ->
  xor_bits (a ++ b) (c ++ d) = xor_bits a c ++ xor_bits b d.
Proof.
  revert c; induction a as [|x a IH]; intros [|y c] H; cbn in *; try lia; auto.
  unfold xor_bits in *. cbn. f_equal. apply IH. lia.
Qed.

Lemma xor_bits_zero a n : length a = n -> xor_bits a (repeat false n) = a.
Proof.
  revert n; induction a as [|x a IH]; intros [|n] H; cbn in *; try lia; auto.
  unfold xor_bits in *. cbn. rewrite xorb_false_r. f_equal. apply IH. lia.
Qed.

Lemma xor_bits_length a b : length a = length b -> length (xor_bits a b) = length a.
Proof. intros H. unfold xor_bits. rewrite map_length, combine_length. lia. Qed.

Lemma xor_word_stream e w x y : word_stream e w (N.lxor x y) = xor_bits (word_stream e w x) (word_stream e w y).
Proof.
  unfold word_stream, xor_bits. induction (seq 0 w) as [|i l IH]; [reflexivity|].
  cbn [map combine fst snd]. now rewrite N.lxor_spec, IH.
Qed.

Lemma xor_stream e w a b : length a = length b ->
  stream e w (map (fun p => N.lxor (fst p) (snd p)) (combine a b)) = xor_bits (stream e w a) (stream e w b).
Proof.
  revert b; induction a as [|x a IH]; intros [|y b] H; cbn [length] in H; try lia; auto.
  cbn [combine map fst snd]. rewrite !stream_cons, IH by lia.
  rewrite xor_bits_app by now rewrite !word_stream_length. f_equal. apply xor_word_stream.
Qed.

Lemma combine_fits w a b : Forall (fits w) a -> Forall (fits w) b ->
  Forall (fits w) (map (fun p => N.lxor (fst p) (snd p)) (combine a b)).
Proof.
  intros Ha. revert b. induction Ha as [|x a Hx Ha IH]; intros [|y b] Hb; cbn; try constructor;
    inversion Hb; subst; auto. now apply fits_lxor.
Qed.

Lemma xored_ok bw st block : bw <= 25 -> block_ok 64 25 st -> block_ok 64 bw block ->
  block_ok 64 25 (map (fun p => N.lxor (fst p) (snd p)) (combine (firstn (length block) st) block) ++
     skipn (length block) st).
Proof.
  intros Hbw [L F] [Lb Fb]. rewrite Lb. split.
  - rewrite app_length, map_length, combine_length, firstn_length, skipn_length. lia.
  - rewrite <- (firstn_skipn bw st) in F. apply Forall_app in F.
    apply Forall_app. split; [|tauto]. apply combine_fits; tauto.
Qed.

Lemma process_block_string bw st block : bw <= 25 -> block_ok 64 25 st -> block_ok 64 bw block ->
  block_ok 64 25 (keccak_process_block perm st block) /\
  stream BOLB 64 (keccak_process_block perm st block) =
  absorb_block (64 * bw) (stream BOLB 64 st) (stream BOLB 64 block).
Proof.
  intros Hbw Hst Hb. pose proof (xored_ok bw st block Hbw Hst Hb) as Hx.
  unfold keccak_process_block. split; [now apply swapped_permute_ok|].
  rewrite swapped_permute_string by auto. unfold absorb_block. f_equal.
  destruct Hst as [L F], Hb as [Lb Fb].
  rewrite stream_app, xor_stream by (rewrite firstn_length; lia). rewrite Lb.
  rewrite <- (firstn_skipn bw st) at 3. rewrite stream_app.
  rewrite xor_bits_app by (rewrite !stream_length, firstn_length; lia). f_equal.
  symmetry. apply xor_bits_zero. rewrite stream_length, skipn_length. lia.
Qed.
End Perm.

Lemma permute_correct : perm_correct permute.
Proof. intros st _. reflexivity. Qed.
