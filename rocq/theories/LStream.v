(** Facts about bit streams. *)
From Coq Require Import NArith Arith List Bool Lia ZifyBool ZifyNat ZifyN ZArith.
From Verif Require Import SpecStream.
Import ListNotations.
Ltac Zify.zify_post_hook ::= Z.div_mod_to_equations.

Lemma bitpos_lt e w i : (w mod 8 = 0)%nat -> i < w -> bitpos e w i < w.
Proof. destruct e; unfold bitpos; lia. Qed.

Lemma bitpos_invol e w i : (w mod 8 = 0)%nat -> i < w -> bitpos e w (bitpos e w i) = i.
Proof. destruct e; unfold bitpos; intros; try lia. Qed.

Lemma word_stream_length e w x : length (word_stream e w x) = w.
Proof. unfold word_stream. now rewrite map_length, seq_length. Qed.

Lemma stream_cons e w x l : stream e w (x :: l) = word_stream e w x ++ stream e w l.
Proof. reflexivity. Qed.

Lemma stream_app e w a b : stream e w (a ++ b) = stream e w a ++ stream e w b.
Proof. apply flat_map_app. Qed.

Lemma stream_length e w l : length (stream e w l) = w * length l.
Proof.
  induction l as [|x l IH]; [simpl; lia|].
  rewrite stream_cons, app_length, word_stream_length, IH. simpl length. lia.
Qed.

Lemma N_of_bits_testbit l j : N.testbit (N_of_bits l) (N.of_nat j) = nth j l false.
Proof.
  revert j; induction l as [|b l IH]; intros j.
  - simpl. destruct j; reflexivity.
  - cbn [N_of_bits]. rewrite N.add_comm. destruct j as [|j].
    + change (N.of_nat 0) with 0%N. rewrite N.testbit_0_r. reflexivity.
    + rewrite Nnat.Nat2N.inj_succ, N.testbit_succ_r. apply IH.
Qed.

Lemma N_of_bits_lt l : (N_of_bits l < 2 ^ N.of_nat (length l))%N.
Proof.
  induction l as [|b l IH]; [reflexivity|].
  cbn [N_of_bits length]. rewrite Nnat.Nat2N.inj_succ, N.pow_succ_r'.
  destruct b; simpl N.b2n; lia.
Qed.

Lemma stream_word_fits e w s : fits w (stream_word e w s).
Proof.
  unfold fits, stream_word.
  eapply N.lt_le_trans; [apply N_of_bits_lt|].
  rewrite map_length, seq_length. lia.
Qed.

Lemma testbit_high w x j : fits w x -> w <= j -> N.testbit x (N.of_nat j) = false.
Proof.
  intros Hf Hj. unfold fits in Hf.
  destruct (N.eq_dec x 0) as [->|Hx]; [apply N.bits_0|].
  apply N.bits_above_log2.
  apply N.log2_lt_pow2 in Hf; lia.
Qed.

Lemma testbit_ext w x y : fits w x -> fits w y ->
  (forall j, j < w -> N.testbit x (N.of_nat j) = N.testbit y (N.of_nat j)) -> x = y.
Proof.
  intros Hx Hy H. apply N.bits_inj. intros n.
  rewrite <- (Nnat.N2Nat.id n).
  destruct (le_lt_dec w (N.to_nat n)).
  - rewrite !(testbit_high w); auto.
  - auto.
Qed.

Lemma nth_word_stream e w x i d : i < w ->
  nth i (word_stream e w x) d = N.testbit x (N.of_nat (bitpos e w i)).
Proof.
  intros Hi. unfold word_stream.
  rewrite nth_indep with (d' := (fun i => N.testbit x (N.of_nat (bitpos e w i))) 0)
    by (rewrite map_length, seq_length; auto).
  rewrite (map_nth (fun i => N.testbit x (N.of_nat (bitpos e w i)))).
  rewrite seq_nth by auto. reflexivity.
Qed.

Lemma testbit_stream_word e w s j : j < w ->
  N.testbit (stream_word e w s) (N.of_nat j) = nth (bitpos e w j) s false.
Proof.
  intros Hj. unfold stream_word. rewrite N_of_bits_testbit.
  rewrite nth_indep with (d' := (fun j => nth (bitpos e w j) s false) 0)
    by (rewrite map_length, seq_length; auto).
  rewrite (map_nth (fun j => nth (bitpos e w j) s false)).
  rewrite seq_nth by auto. reflexivity.
Qed.

Lemma stream_word_word_stream e w x : (w mod 8 = 0)%nat -> fits w x ->
  stream_word e w (word_stream e w x) = x.
Proof.
  intros Hw Hx. apply (testbit_ext w); auto using stream_word_fits.
  intros j Hj. rewrite testbit_stream_word by auto.
  rewrite nth_word_stream by (apply bitpos_lt; auto).
  now rewrite bitpos_invol.
Qed.

Lemma word_stream_stream_word e w s : (w mod 8 = 0)%nat -> length s = w ->
  word_stream e w (stream_word e w s) = s.
Proof.
  intros Hw Hs. apply nth_ext with (d := false) (d' := false).
  - now rewrite word_stream_length.
  - intros i Hi. rewrite word_stream_length in Hi.
    rewrite nth_word_stream by auto.
    rewrite testbit_stream_word by (apply bitpos_lt; auto).
    now rewrite bitpos_invol.
Qed.

(** Chunks *)
Lemma chunk_length {A} n m (l : list A) : length (chunk n m l) = m.
Proof. revert l; induction m; simpl; intros; auto. Qed.

Lemma chunk_app {A} n m k (a b : list A) : length a = n * m ->
  chunk n (m + k) (a ++ b) = chunk n m a ++ chunk n k b.
Proof.
  revert a; induction m as [|m IH]; intros a Ha.
  - destruct a; [reflexivity|simpl in Ha; lia].
  - simpl. rewrite firstn_app, skipn_app.
    replace (n - length a) with 0 by lia. simpl. rewrite app_nil_r.
    f_equal. apply IH. rewrite skipn_length. lia.
Qed.

Lemma chunks_nil {A} n : @chunks A n [] = [].
Proof. unfold chunks. simpl. destruct n; reflexivity. Qed.

Lemma chunks_app {A} n (a b : list A) : 0 < n -> length a mod n = 0 ->
  chunks n (a ++ b) = chunks n a ++ chunks n b.
Proof.
  intros Hn Ha. unfold chunks. rewrite app_length.
  assert (E : length a = n * (length a / n)) by (apply Nat.div_exact; lia).
  replace ((length a + length b) / n) with (length a / n + length b / n).
  - now apply chunk_app.
  - rewrite E at 2. rewrite (Nat.mul_comm n), Nat.add_comm with (n := _ * n).
    rewrite Nat.div_add by lia. lia.
Qed.

Lemma chunks_single {A} n (a : list A) : 0 < n -> length a = n -> chunks n a = [a].
Proof.
  intros Hn Ha. unfold chunks. rewrite Ha, Nat.div_same by lia.
  simpl. rewrite <- Ha at 1. now rewrite firstn_all.
Qed.

Lemma chunks_cons {A} n (a b : list A) : 0 < n -> length a = n ->
  chunks n (a ++ b) = a :: chunks n b.
Proof.
  intros. rewrite chunks_app, chunks_single; auto.
  subst. apply Nat.mod_same. lia.
Qed.

Lemma chunks_snoc {A} n (a b : list A) : 0 < n -> length a mod n = 0 -> length b = n ->
  chunks n (a ++ b) = chunks n a ++ [b].
Proof. intros. rewrite chunks_app, (chunks_single n b); auto. Qed.

Lemma chunks_length {A} n (l : list A) : length (chunks n l) = length l / n.
Proof. apply chunk_length. Qed.

Lemma chunks_lt {A} n (l : list A) : length l < n -> chunks n l = [].
Proof. intros. unfold chunks. now rewrite Nat.div_small. Qed.

Lemma chunk_Forall {A} n m (l : list A) : n * m <= length l ->
  Forall (fun c => length c = n) (chunk n m l).
Proof.
  revert l; induction m; simpl; intros l H; constructor.
  - rewrite firstn_length. nia.
  - apply IHm. rewrite skipn_length. nia.
Qed.

Lemma chunks_Forall {A} n (l : list A) : 0 < n -> Forall (fun c => length c = n) (chunks n l).
Proof.
  intros. apply chunk_Forall. apply Nat.mul_div_le. lia.
Qed.

Lemma chunk_concat {A} n m (l : list A) : length l = n * m -> concat (chunk n m l) = l.
Proof.
  revert l; induction m; simpl; intros l H.
  - destruct l; simpl in *; auto; nia.
  - rewrite IHm by (rewrite skipn_length; nia). apply firstn_skipn.
Qed.

Lemma chunks_concat {A} n (l : list A) : 0 < n -> length l mod n = 0 -> concat (chunks n l) = l.
Proof.
  intros. apply chunk_concat. apply Nat.div_exact; lia.
Qed.

(** Words and streams *)
Lemma words_of_stream_length e w s : length (words_of_stream e w s) = length s / w.
Proof. unfold words_of_stream. now rewrite map_length, chunks_length. Qed.

Lemma words_of_stream_fits e w s : Forall (fits w) (words_of_stream e w s).
Proof.
  unfold words_of_stream. apply Forall_map, Forall_forall. intros. apply stream_word_fits.
Qed.

Lemma words_of_stream_stream e w ws : (w mod 8 = 0)%nat -> 0 < w -> Forall (fits w) ws ->
  words_of_stream e w (stream e w ws) = ws.
Proof.
  intros Hw Hp H. induction H as [|x l Hx Hl IH].
  - unfold words_of_stream. change (stream e w []) with (@nil bool). now rewrite chunks_nil.
  - unfold words_of_stream in *. rewrite stream_cons, chunks_cons by (auto using word_stream_length).
    simpl map. rewrite IH, stream_word_word_stream; auto.
Qed.

Lemma stream_words_of_stream e w s : (w mod 8 = 0)%nat -> 0 < w -> length s mod w = 0 ->
  stream e w (words_of_stream e w s) = s.
Proof.
  intros Hw Hp Hs. rewrite <- (chunks_concat w s) at 2 by auto.
  unfold words_of_stream, stream.
  rewrite flat_map_concat_map, map_map. f_equal.
  rewrite <- (map_id (chunks w s)) at 2.
  apply map_ext_in. intros c Hc.
  apply word_stream_stream_word; auto.
  eapply Forall_forall in Hc; [|apply chunks_Forall; auto]. exact Hc.
Qed.

Lemma words_of_stream_app e w a b : 0 < w -> length a mod w = 0 ->
  words_of_stream e w (a ++ b) = words_of_stream e w a ++ words_of_stream e w b.
Proof. intros. unfold words_of_stream. now rewrite chunks_app, map_app. Qed.

Lemma stream_inj e w a b : (w mod 8 = 0)%nat -> 0 < w -> Forall (fits w) a -> Forall (fits w) b ->
  stream e w a = stream e w b -> a = b.
Proof.
  intros Hw Hp Ha Hb E.
  rewrite <- (words_of_stream_stream e w a), <- (words_of_stream_stream e w b) by auto.
  now rewrite E.
Qed.

(** Octets *)
Lemma octets_bits_length os : length (octets_bits os) = 8 * length os.
Proof. apply stream_length. Qed.

Lemma octets_bits_app a b : octets_bits (a ++ b) = octets_bits a ++ octets_bits b.
Proof. apply stream_app. Qed.

Lemma bits_octets_bits os : Forall (fits 8) os -> bits_octets (octets_bits os) = os.
Proof. intros. apply words_of_stream_stream; auto; lia. Qed.

Lemma octets_bits_octets s : length s mod 8 = 0 -> octets_bits (bits_octets s) = s.
Proof. intros. apply stream_words_of_stream; auto; lia. Qed.

(** Streams and prefixes *)
Lemma firstn_stream_app {A} n (a b : list A) : n <= length a -> firstn n (a ++ b) = firstn n a.
Proof.
  intros. rewrite firstn_app. replace (n - length a) with 0 by lia.
  simpl. now rewrite app_nil_r.
Qed.

Lemma stream_firstn e w k ws : firstn (w * k) (stream e w ws) = stream e w (firstn k ws).
Proof.
  revert ws; induction k as [|k IH]; intros ws.
  - rewrite Nat.mul_0_r. reflexivity.
  - destruct ws as [|x ws]; [simpl; now rewrite firstn_nil|].
    rewrite stream_cons. simpl (firstn (S k) _). rewrite stream_cons.
    rewrite firstn_app, word_stream_length, firstn_all2 by (rewrite word_stream_length; nia).
    f_equal. replace (w * S k - w) with (w * k) by nia. apply IH.
Qed.

Lemma stream_skipn e w k ws : skipn (w * k) (stream e w ws) = stream e w (skipn k ws).
Proof.
  revert ws; induction k as [|k IH]; intros ws.
  - rewrite Nat.mul_0_r. reflexivity.
  - destruct ws as [|x ws]; [simpl; now rewrite skipn_nil|].
    rewrite stream_cons. simpl (skipn (S k) _).
    rewrite skipn_app, word_stream_length, skipn_all2 by (rewrite word_stream_length; nia).
    simpl. replace (w * S k - w) with (w * k) by nia. apply IH.
Qed.

Lemma firstn_app_exact {A} (a b : list A) n : length a = n -> firstn n (a ++ b) = a.
Proof. intros <-. rewrite firstn_stream_app by lia. apply firstn_all. Qed.

Lemma skipn_repeat {A} (x : A) n k : skipn n (repeat x k) = repeat x (k - n).
Proof. revert n; induction k; destruct n; simpl; auto. Qed.

Lemma firstn_repeat {A} (x : A) n k : n <= k -> firstn n (repeat x k) = repeat x n.
Proof. revert k; induction n; destruct k; simpl; intros; try lia; auto. f_equal. apply IHn. lia. Qed.

