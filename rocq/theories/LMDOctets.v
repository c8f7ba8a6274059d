(** Merkle-Damgard on octets equals Merkle-Damgard on the bits of the octets. *)
From Coq Require Import NArith Arith List Bool Lia ZifyBool ZifyNat ZifyN ZArith.
From Verif Require Import SpecStream LStream SpecWords LWords SpecMD SpecMDOctets LMD LMDProps LMDStmt LGen.
Import ListNotations.
Ltac Zify.zify_post_hook ::= Z.div_mod_to_equations.

Section S.
Context (big : bool) (n bw lo : nat).
Context (Hn : 0 < n) (Hbw : 0 < bw).
Notation e := (if big then BOBB else LOBB).

Lemma e_ok : e = BOBB \/ e = LOBB.
Proof. destruct big; auto. Qed.

Lemma octets_bits_zeros k : octets_bits (repeat 0%N k) = repeat false (8 * k).
Proof.
  induction k as [|k IH]; [reflexivity|]. replace (8 * S k) with (8 + 8 * k) by lia.
  rewrite repeat_app. cbn [repeat]. change (0%N :: repeat 0%N k) with ([0%N] ++ repeat 0%N k).
  rewrite octets_bits_app, IH. reflexivity.
Qed.

Lemma length_field_bits os : octets_bits (length_field big lo os) = word_stream e (8 * lo) (N.of_nat (8 * length os)).
Proof.
  rewrite <- (octets_in_order_stream e lo) by apply e_ok. rewrite octet_stream by apply e_ok.
  unfold length_field. destruct big; reflexivity.
Qed.

Lemma length_field_length os : length (length_field big lo os) = lo.
Proof. unfold length_field. destruct big; rewrite ?rev_length; apply octets_le_length. Qed.

Lemma length_field_fits os : Forall (fits 8) (length_field big lo os).
Proof.
  pose proof (octets_in_order_fits e lo (N.of_nat (8 * length os))) as H. unfold length_field.
  destruct big; exact H.
Qed.

Lemma padded_length marker os : length (padded big n bw lo marker os) mod (n * bw) = 0.
Proof.
  unfold padded. rewrite !app_length, repeat_length, length_field_length. cbn [length].
  destruct (pad_zeros_spec (n * bw) (length os + 1 + lo)) as [H _]; [nia|].
  replace (length os + (1 + (pad_zeros (n * bw) (length os + 1 + lo) + lo)))
    with (length os + 1 + lo + pad_zeros (n * bw) (length os + 1 + lo)) by lia. exact H.
Qed.

Lemma padded_fits marker os : fits 8 marker -> Forall (fits 8) os -> Forall (fits 8) (padded big n bw lo marker os).
Proof.
  intros Hm HF. unfold padded. rewrite !Forall_app. split; [exact HF|]. split; [auto|].
  split; [|apply length_field_fits]. apply Forall_forall. intros x Hx. apply repeat_spec in Hx. subst. reflexivity.
Qed.

(** The two markers. *)
Lemma padded_one os : octets_bits (padded big n bw lo 0x80 os) = md_pad e (8 * n * bw) (8 * lo) one_marker (octets_bits os).
Proof.
  unfold padded, md_pad, one_marker. rewrite !octets_bits_app, octets_bits_zeros, length_field_bits, octets_bits_length.
  f_equal. change (octets_bits [0x80%N]) with ([true] ++ repeat false 7). rewrite <- !app_assoc. f_equal.
  rewrite !app_assoc, <- repeat_app. do 2 f_equal. symmetry. cbn [length].
  destruct (pad_zeros_spec (n * bw) (length os + 1 + lo)) as [H K]; [nia|].
  apply pad_zeros_unique; [nia| |nia].
  apply Nat.div_exact in H; [|nia].
  replace (8 * length os + 1 + 8 * lo + (7 + 8 * pad_zeros (n * bw) (length os + 1 + lo)))
    with (8 * (length os + 1 + lo + pad_zeros (n * bw) (length os + 1 + lo))) by lia.
  rewrite H. rewrite Nat.mul_assoc. rewrite (Nat.mul_assoc 8 n bw). rewrite Nat.mul_comm. apply Nat.mod_mul. nia.
Qed.

Lemma padded_tiger os : octets_bits (padded big n bw lo 0x01 os) = md_pad e (8 * n * bw) (8 * lo) tiger_marker (octets_bits os).
Proof.
  unfold padded, md_pad. rewrite !octets_bits_app, octets_bits_zeros, length_field_bits, octets_bits_length.
  f_equal. change (octets_bits [0x01%N]) with tiger_marker. f_equal. do 2 f_equal. symmetry.
  change (length tiger_marker) with 8.
  destruct (pad_zeros_spec (n * bw) (length os + 1 + lo)) as [H K]; [nia|].
  apply pad_zeros_unique; [nia| |nia].
  apply Nat.div_exact in H; [|nia].
  replace (8 * length os + 8 + 8 * lo + (8 * pad_zeros (n * bw) (length os + 1 + lo)))
    with (8 * (length os + 1 + lo + pad_zeros (n * bw) (length os + 1 + lo))) by lia.
  rewrite H. rewrite Nat.mul_assoc. rewrite (Nat.mul_assoc 8 n bw). rewrite Nat.mul_comm. apply Nat.mod_mul. nia.
Qed.

Lemma to_words_stream os : Forall (fits 8) os -> words_of_stream e (8 * n) (octets_bits os) = to_words big n os.
Proof. intros HF. unfold to_words. destruct big; [apply be_words_stream|apply le_words_stream]; auto. Qed.

Lemma chain_octets iv comp P : Forall (fits 8) P ->
  md_chain e (8 * n) bw comp iv (octets_bits P) = fold_left comp (map (to_words big n) (chunks (n * bw) P)) iv.
Proof.
  intros HF. unfold md_chain. rewrite <- Nat.mul_assoc, chunks_octets by nia. rewrite map_map.
  f_equal. apply map_ext_in. intros c Hc. apply to_words_stream.
  unfold chunks in Hc. pose proof (chunk_fits (n * bw) (length P / (n * bw)) P HF) as K.
  rewrite Forall_forall in K. auto.
Qed.

Lemma to_octets_stream ws : octets_bits (to_octets big n ws) = stream e (8 * n) ws.
Proof. unfold to_octets. destruct big; [apply be_octets_stream|apply le_octets_stream]. Qed.

Lemma to_octets_fits ws : Forall (fits 8) (to_octets big n ws).
Proof. unfold to_octets. destruct big; [apply be_octets_fits|apply le_octets_fits]. Qed.

Lemma to_octets_length ws : length (to_octets big n ws) = n * length ws.
Proof.
  assert (H : 8 * length (to_octets big n ws) = 8 * n * length ws)
    by (rewrite <- octets_bits_length, to_octets_stream; apply stream_length). lia.
Qed.

Lemma output_octets out ws : out <= n * length ws ->
  words_of_stream e 8 (firstn (8 * out) (stream e (8 * n) ws)) = firstn out (to_octets big n ws).
Proof.
  intros Ho. rewrite <- to_octets_stream, octets_bits_firstn.
  rewrite <- (octet_stream e) by apply e_ok.
  apply words_of_stream_stream; [reflexivity|lia|]. apply Forall_firstn', to_octets_fits.
Qed.

Lemma md_hash_octets_gen marker mk iv comp out os :
  octets_bits (padded big n bw lo mk os) = md_pad e (8 * n * bw) (8 * lo) marker (octets_bits os) ->
  fits 8 mk -> Forall (fits 8) os -> (forall bs, out <= n * length (fold_left comp bs iv)) ->
  md_hash e (8 * n) bw (8 * lo) (8 * out) marker iv comp (octets_bits os) =
  md_octets big n bw lo mk iv comp out os.
Proof.
  intros E Hm HF Hl. unfold md_hash, md_octets. rewrite <- E, chain_octets by now apply padded_fits.
  now apply output_octets.
Qed.

Lemma md_hash_octets iv comp out os : Forall (fits 8) os -> (forall bs, out <= n * length (fold_left comp bs iv)) ->
  md_hash e (8 * n) bw (8 * lo) (8 * out) one_marker iv comp (octets_bits os) =
  md_octets big n bw lo 0x80 iv comp out os.
Proof. intros. apply md_hash_octets_gen; auto. apply padded_one. reflexivity. Qed.

Lemma tiger_hash_octets iv comp out os : Forall (fits 8) os -> (forall bs, out <= n * length (fold_left comp bs iv)) ->
  md_hash e (8 * n) bw (8 * lo) (8 * out) tiger_marker iv comp (octets_bits os) =
  md_octets big n bw lo 0x01 iv comp out os.
Proof. intros. apply md_hash_octets_gen; auto. apply padded_tiger. reflexivity. Qed.

Lemma fold_blocks_ok (comp comp' : list N -> list N -> list N) (P Q : list N -> Prop) :
  (forall s b, P s -> Q b -> comp s b = comp' s b /\ P (comp s b)) ->
  forall bs s, P s -> Forall Q bs -> fold_left comp bs s = fold_left comp' bs s.
Proof.
  intros H. induction bs as [|b bs IH]; intros s Hs HF; cbn; [reflexivity|].
  inversion HF; subst. destruct (H s b) as [E K]; auto. rewrite <- E. auto.
Qed.

(** Blocks of the padded message are blocks of words. *)
Lemma to_words_ok os : length os = n * bw -> Forall (fits 8) os ->
  length (to_words big n os) = bw /\ Forall (fits (8 * n)) (to_words big n os).
Proof.
  intros L HF. rewrite <- to_words_stream by auto. split; [|apply words_of_stream_fits].
  rewrite words_of_stream_length, octets_bits_length, L.
  replace (8 * (n * bw)) with (bw * (8 * n)) by lia. apply Nat.div_mul. lia.
Qed.

Lemma md_octets_comp mk iv comp comp' out os (P : list N -> Prop) :
  (forall s b, P s -> length b = bw /\ Forall (fits (8 * n)) b -> comp s b = comp' s b /\ P (comp s b)) ->
  P iv -> fits 8 mk -> Forall (fits 8) os ->
  md_octets big n bw lo mk iv comp out os = md_octets big n bw lo mk iv comp' out os.
Proof.
  intros H Hi Hm HF. unfold md_octets. do 2 f_equal.
  apply (fold_blocks_ok comp comp' P (fun b => length b = bw /\ Forall (fits (8 * n)) b)); auto.
  apply Forall_map. pose proof (padded_fits mk os Hm HF) as K. unfold chunks.
  pose proof (chunk_fits (n * bw) (length (padded big n bw lo mk os) / (n * bw)) _ K) as K1.
  pose proof (chunks_Forall (n * bw) (padded big n bw lo mk os) ltac:(nia)) as K2. unfold chunks in K2.
  rewrite Forall_forall in *. intros c Hc. apply to_words_ok; auto.
Qed.
End S.
