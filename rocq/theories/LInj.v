(** The two reference injectors meet the contract; consequences of the contract. *)
From Coq Require Import NArith Arith List Bool Lia ZifyBool ZifyNat ZifyN ZArith.
From Verif Require Import SpecStream LStream MPack.
Import ListNotations.
Ltac Zify.zify_post_hook ::= Z.div_mod_to_equations.

Lemma block_stream_length e w bw b : block_ok w bw b -> length (stream e w b) = w * bw.
Proof. intros [H _]. rewrite stream_length. now rewrite H. Qed.

Lemma block_ok_words e w bw s : 0 < w -> length s = w * bw -> block_ok w bw (words_of_stream e w s).
Proof.
  intros Hw Hs. split; [|apply words_of_stream_fits].
  rewrite words_of_stream_length, Hs, Nat.mul_comm, Nat.div_mul; lia.
Qed.

Lemma block_stream_words e w bw s : w mod 8 = 0 -> 0 < w -> length s = w * bw ->
  stream e w (words_of_stream e w s) = s.
Proof.
  intros. apply stream_words_of_stream; auto. rewrite H1, Nat.mul_comm, Nat.mod_mul; lia.
Qed.

Lemma block_words_stream e w bw b : w mod 8 = 0 -> 0 < w -> block_ok w bw b ->
  words_of_stream e w (stream e w b) = b.
Proof. intros ? ? [_ ?]. now apply words_of_stream_stream. Qed.

Lemma block_ok_zeros w bw : block_ok w bw (repeat 0%N bw).
Proof.
  split; [apply repeat_length|]. apply Forall_forall. intros x Hx.
  apply repeat_spec in Hx. subst. unfold fits. apply N.neq_0_lt_0, N.pow_nonzero. lia.
Qed.

Lemma word_stream_0 e w : word_stream e w 0%N = repeat false w.
Proof.
  unfold word_stream. rewrite <- (seq_length w 0) at 2.
  generalize (seq 0 w). induction l as [|a l IHl]; cbn [map length repeat]; [reflexivity|].
  now rewrite IHl, N.bits_0.
Qed.

Lemma stream_zeros e w n : stream e w (repeat 0%N n) = repeat false (w * n).
Proof.
  induction n; [now rewrite Nat.mul_0_r|].
  simpl repeat. rewrite stream_cons, word_stream_0, IHn, <- repeat_app. f_equal. lia.
Qed.

Lemma inj_keep_contract e w bw : w mod 8 = 0 -> 0 < w -> injector_contract e w bw (inj_keep e w bw).
Proof.
  intros Hw Hp.
  assert (L : forall src n dst seen off,
    block_ok w bw dst -> seen + n <= w * bw -> off + n <= w * length src ->
    length (firstn seen (stream e w dst) ++ firstn n (skipn off (stream e w src)) ++
            skipn (seen + n) (stream e w dst)) = w * bw).
  { intros. rewrite !app_length, !firstn_length, !skipn_length, (block_stream_length e w bw dst) by auto.
    rewrite stream_length. lia. }
  constructor; intros.
  - apply block_ok_words; auto.
  - unfold inj_keep. rewrite (block_stream_words e w bw) by auto.
    assert (A1 : length (firstn seen (stream e w dst)) = seen).
    { rewrite firstn_length, (block_stream_length e w bw dst) by auto. lia. }
    assert (A2 : length (firstn n (skipn off (stream e w src))) = n).
    { rewrite firstn_length, skipn_length, stream_length. lia. }
    rewrite app_assoc, firstn_stream_app by (rewrite app_length; lia).
    rewrite <- A1 at 1. rewrite <- A2 at 1. rewrite <- app_length. apply firstn_all.
  - unfold inj_keep. rewrite (block_stream_words e w bw) by auto.
    left.
    assert (A1 : length (firstn seen (stream e w dst)) = seen).
    { rewrite firstn_length, (block_stream_length e w bw dst) by auto. lia. }
    assert (A2 : length (firstn n (skipn off (stream e w src))) = n).
    { rewrite firstn_length, skipn_length, stream_length. lia. }
    rewrite app_assoc, app_nth2 by (rewrite app_length; lia).
    rewrite app_length, A1, A2.
    rewrite <- (firstn_skipn (seen + n) (stream e w dst)) at 1.
    rewrite app_nth2 by (rewrite firstn_length, (block_stream_length e w bw dst) by auto; lia).
    rewrite firstn_length, (block_stream_length e w bw dst) by auto.
    f_equal. lia.
Qed.

Lemma nth_skipn_add {A} (l : list A) i j d : nth i (skipn j l) d = nth (j + i) l d.
Proof.
  revert l; induction j; intros l; [reflexivity|].
  destruct l; simpl; [now destruct i|]. apply IHj.
Qed.

Lemma nth_firstn_lt {A} (l : list A) i n d : i < n -> nth i (firstn n l) d = nth i l d.
Proof.
  revert l i; induction n; intros l i H; [lia|].
  destruct l; [reflexivity|]. destruct i; [reflexivity|]. simpl. apply IHn. lia.
Qed.

Lemma nth_repeat_false n i : nth i (repeat false n) false = false.
Proof. revert i; induction n; destruct i; simpl; auto. Qed.

Lemma inj_run_contract e w bw : w mod 8 = 0 -> 0 < w -> injector_contract e w bw (inj_run e w bw).
Proof.
  intros Hw Hp.
  assert (L : forall src n dst seen off,
    block_ok w bw dst -> seen + n <= w * bw -> off + n <= w * length src ->
    length (firstn (w * bw) (firstn seen (stream e w dst) ++ skipn off (stream e w src) ++
                      repeat false (w * bw))) = w * bw).
  { intros. rewrite firstn_length, !app_length, !firstn_length, !skipn_length, repeat_length. lia. }
  constructor; intros.
  - eapply block_ok_words; eauto.
  - unfold inj_run. rewrite (block_stream_words e w bw) by eauto.
    assert (A1 : length (firstn seen (stream e w dst)) = seen).
    { rewrite firstn_length, (block_stream_length e w bw dst) by auto. lia. }
    rewrite firstn_firstn, Nat.min_l by lia.
    rewrite firstn_app, A1. rewrite (firstn_all2 (firstn seen _)) by lia. f_equal.
    replace (seen + n - seen) with n by lia.
    apply firstn_stream_app. rewrite skipn_length, stream_length. lia.
  - unfold inj_run. rewrite (block_stream_words e w bw) by eauto.
    assert (A1 : length (firstn seen (stream e w dst)) = seen).
    { rewrite firstn_length, (block_stream_length e w bw dst) by auto. lia. }
    right. 
    rewrite nth_firstn_lt, app_nth2, A1 by lia.
    destruct (lt_dec (i - seen) (length (skipn off (stream e w src)))).
    + right; left. rewrite app_nth1 by auto. now rewrite nth_skipn_add.
    + left. rewrite app_nth2, nth_repeat_false by lia. reflexivity.
Qed.

(** What the callers use. *)
Section Use.
Context (e : endian) (w bw : nat) (inj : injector).
Context (Hw : w mod 8 = 0) (Hp : 0 < w) (HI : injector_contract e w bw inj).

Lemma inject_some src n dst seen off :
  block_ok w bw dst -> Forall (fits w) src ->
  seen + n <= w * bw -> off + n <= w * length src ->
  exists r, inject inj w bw src n dst seen off = Some r /\ block_ok w bw r /\
    firstn (seen + n) (stream e w r) =
      firstn seen (stream e w dst) ++ firstn n (skipn off (stream e w src)).
Proof.
  intros Hd Hs H1 H2. exists (inj src n dst seen off).
  unfold inject. replace (_ && _) with true by lia.
  split; [reflexivity|]. split; [eapply inj_wf; eauto|]. eapply inj_head; eauto.
Qed.

(** If everything after the injected bits is zero in source and destination, the whole result
    is determined. *)
Lemma inject_zero_tail src n dst seen off :
  block_ok w bw dst -> Forall (fits w) src ->
  seen + n <= w * bw -> off + n <= w * length src ->
  skipn (seen + n) (stream e w dst) = repeat false (w * bw - (seen + n)) ->
  skipn (off + n) (stream e w src) = repeat false (w * length src - (off + n)) ->
  exists r, inject inj w bw src n dst seen off = Some r /\ block_ok w bw r /\
    stream e w r = firstn seen (stream e w dst) ++ firstn n (skipn off (stream e w src)) ++
                   repeat false (w * bw - (seen + n)).
Proof.
  intros Hd Hs H1 H2 Z1 Z2.
  destruct (inject_some src n dst seen off) as (r & E & Hr & Hh); auto.
  exists r. split; [auto|]. split; [auto|].
  rewrite <- (firstn_skipn (seen + n) (stream e w r)), Hh, <- app_assoc. f_equal. f_equal.
  assert (Er : r = inj src n dst seen off).
  { unfold inject in E. replace (_ && _) with true in E by lia. congruence. }
  apply nth_ext with (d := false) (d' := false).
  { rewrite skipn_length, (block_stream_length e w bw r), repeat_length by auto. lia. }
  intros i Hi. rewrite skipn_length, (block_stream_length e w bw r) in Hi by auto.
  rewrite nth_repeat_false, nth_skipn_add.
  pose proof (inj_tail e w bw inj HI src n dst seen off (seen + n + i) Hd Hs H1 H2) as T.
  rewrite Er. destruct T as [T|[T|[T|[]]]]; [lia|..].
  - rewrite <- T, <- nth_skipn_add, Z1. apply nth_repeat_false.
  - now rewrite <- T.
  - rewrite <- T. replace (off + (seen + n + i - seen)) with (off + n + i) by lia.
    rewrite <- nth_skipn_add, Z2. apply nth_repeat_false.
Qed.

(** Filling up to the end of the block determines the result. *)
Lemma inject_fill src n dst seen off :
  block_ok w bw dst -> Forall (fits w) src ->
  seen + n = w * bw -> off + n <= w * length src ->
  exists r, inject inj w bw src n dst seen off = Some r /\ block_ok w bw r /\
    stream e w r = firstn seen (stream e w dst) ++ firstn n (skipn off (stream e w src)).
Proof.
  intros Hd Hs H1 H2.
  destruct (inject_some src n dst seen off) as (r & E & Hr & Hh); auto; [lia|].
  exists r. split; [auto|]. split; [auto|].
  rewrite <- Hh, H1. rewrite firstn_all2; [reflexivity|].
  rewrite (block_stream_length e w bw r); auto.
Qed.
End Use.
