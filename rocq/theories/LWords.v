(** Octets and words. *)
From Coq Require Import NArith Arith List Bool Lia ZifyBool ZifyNat ZifyN ZArith.
From Verif Require Import SpecStream LStream MPack LInj SpecWords SpecMD LMDProps LMDStmt.
Import ListNotations.
Ltac Zify.zify_post_hook ::= Z.div_mod_to_equations.

Lemma le_value_fits os : Forall (fits 8) os -> fits (8 * length os) (le_value os).
Proof.
  induction 1 as [|o os Ho HF IH]; unfold fits in *; cbn [le_value length].
  - cbn. lia.
  - change (2 ^ N.of_nat 8)%N with 256%N in Ho.
    replace (N.of_nat (8 * S (length os))) with (8 + N.of_nat (8 * length os))%N by lia.
    rewrite N.pow_add_r. change (2 ^ 8)%N with 256%N. nia.
Qed.

Lemma octets_le_value os : Forall (fits 8) os -> octets_le (length os) (le_value os) = os.
Proof.
  induction 1 as [|o os Ho HF IH]; cbn [le_value length octets_le]; [reflexivity|].
  unfold fits in Ho. change (2 ^ N.of_nat 8)%N with 256%N in Ho.
  rewrite (N.mul_comm 256), N.mod_add, N.mod_small by lia.
  rewrite N.div_add, (N.div_small o) by lia. rewrite N.add_0_l, IH. reflexivity.
Qed.

Lemma word_stream_fits_inj e w x y : w mod 8 = 0 -> fits w x -> fits w y ->
  word_stream e w x = word_stream e w y -> x = y.
Proof.
  intros Hw Hx Hy E. rewrite <- (stream_word_word_stream e w x), <- (stream_word_word_stream e w y); auto.
  now rewrite E.
Qed.

(** One word. *)
Lemma le_word os n : Forall (fits 8) os -> length os = n ->
  stream_word LOBB (8 * n) (octets_bits os) = le_value os.
Proof.
  intros HF L. rewrite <- (octet_stream LOBB) by auto.
  rewrite <- (octets_le_value os HF) at 1. rewrite L.
  change (octets_le n (le_value os)) with (octets_in_order LOBB n (le_value os)).
  rewrite octets_in_order_stream by auto.
  apply stream_word_word_stream; [lia|]. rewrite <- L. now apply le_value_fits.
Qed.

Lemma be_word os n : Forall (fits 8) os -> length os = n ->
  stream_word BOBB (8 * n) (octets_bits os) = be_value os.
Proof.
  intros HF L. unfold be_value, octets_bits.
  assert (HR : Forall (fits 8) (rev os)) by (apply Forall_rev; auto).
  rewrite <- (rev_involutive os) at 1. rewrite <- (octets_le_value (rev os) HR) at 1.
  rewrite rev_length, L.
  change (rev (octets_le n (le_value (rev os)))) with (octets_in_order BOBB n (le_value (rev os))).
  rewrite octets_in_order_stream by auto.
  apply stream_word_word_stream; [lia|]. rewrite <- L, <- rev_length. now apply le_value_fits.
Qed.

Lemma chunk_stream n m os : 8 * (n * m) <= 8 * length os ->
  chunk (8 * n) m (octets_bits os) = map octets_bits (chunk n m os).
Proof.
  revert os; induction m as [|m IH]; intros os L; cbn [chunk map]; [reflexivity|].
  rewrite <- (IH (skipn n os)) by (rewrite skipn_length; nia).
  unfold octets_bits. now rewrite stream_firstn, stream_skipn.
Qed.

Lemma chunks_octets n os : 0 < n -> chunks (8 * n) (octets_bits os) = map octets_bits (chunks n os).
Proof.
  intros Hn. unfold chunks. rewrite octets_bits_length.
  rewrite Nat.div_mul_cancel_l by lia. apply chunk_stream.
  apply Nat.mul_le_mono_l. apply Nat.mul_div_le. lia.
Qed.

Lemma chunk_fits n m (os : list N) : Forall (fits 8) os -> Forall (Forall (fits 8)) (chunk n m os).
Proof.
  revert os; induction m as [|m IH]; intros os H; cbn; constructor.
  - rewrite <- (firstn_skipn n os) in H. apply Forall_app in H. apply H.
  - apply IH. rewrite <- (firstn_skipn n os) in H. apply Forall_app in H. apply H.
Qed.

Lemma le_words_stream n os : 0 < n -> Forall (fits 8) os ->
  words_of_stream LOBB (8 * n) (octets_bits os) = le_words n os.
Proof.
  intros Hn HF. unfold words_of_stream, le_words. rewrite chunks_octets by auto. rewrite map_map.
  apply map_ext_in. intros c Hc. apply le_word.
  - pose proof (chunk_fits n (length os / n) os HF) as K. rewrite Forall_forall in K. apply K. exact Hc.
  - pose proof (chunks_Forall n os Hn) as K. rewrite Forall_forall in K. now apply K.
Qed.

Lemma be_words_stream n os : 0 < n -> Forall (fits 8) os ->
  words_of_stream BOBB (8 * n) (octets_bits os) = be_words n os.
Proof.
  intros Hn HF. unfold words_of_stream, be_words. rewrite chunks_octets by auto. rewrite map_map.
  apply map_ext_in. intros c Hc. apply be_word.
  - pose proof (chunk_fits n (length os / n) os HF) as K. rewrite Forall_forall in K. apply K. exact Hc.
  - pose proof (chunks_Forall n os Hn) as K. rewrite Forall_forall in K. now apply K.
Qed.

Lemma le_octets_stream n ws : octets_bits (le_octets n ws) = stream LOBB (8 * n) ws.
Proof. rewrite <- (octet_stream LOBB) by auto. unfold le_octets. apply (wide_stream LOBB n ws). auto. Qed.

Lemma be_octets_stream n ws : octets_bits (be_octets n ws) = stream BOBB (8 * n) ws.
Proof. unfold octets_bits, be_octets. apply (wide_stream BOBB n ws). auto. Qed.

Lemma le_octets_fits n ws : Forall (fits 8) (le_octets n ws).
Proof. apply flat_map_Forall. intros. apply octets_le_fits. Qed.
Lemma be_octets_fits n ws : Forall (fits 8) (be_octets n ws).
Proof. apply flat_map_Forall. intros. apply Forall_rev, octets_le_fits. Qed.

Lemma words8 e s : e = BOBB \/ e = LOBB -> length s mod 8 = 0 -> words_of_stream e 8 s = bits_octets s.
Proof.
  intros He Hs. apply (stream_inj e 8); auto; try lia; try apply words_of_stream_fits.
  rewrite stream_words_of_stream by (auto; lia). rewrite octet_stream by auto.
  symmetry. apply octets_bits_octets. auto.
Qed.

Lemma pack_le n ws : 0 < n -> pack_from LOBB (8 * n) 8 ws = le_octets n ws.
Proof.
  intros Hn. unfold pack_from, pack. rewrite <- le_octets_stream.
  rewrite words8 by (auto; rewrite octets_bits_length; lia). apply bits_octets_bits. apply le_octets_fits.
Qed.

Lemma pack_be n ws : 0 < n -> pack_from BOBB (8 * n) 8 ws = be_octets n ws.
Proof.
  intros Hn. unfold pack_from, pack. rewrite <- be_octets_stream.
  rewrite words8 by (auto; rewrite octets_bits_length; lia). apply bits_octets_bits. apply be_octets_fits.
Qed.
