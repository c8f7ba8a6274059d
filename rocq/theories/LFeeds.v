(** Histories of word and block feeds in which complete blocks are forgotten. *)
From Coq Require Import NArith Arith List Bool Lia ZifyBool ZifyNat ZifyN ZArith.
From Verif Require Import SpecStream LStream MPack LInj MAcc LAcc LBsp MConstr SpecMD LMD LMDProps SpecFeeds.
Import ListNotations.
Ltac Zify.zify_post_hook ::= Z.div_mod_to_equations.

Section Lossy.
Context (C : construction) (inj : injector).
Context (WF : wf_construction C).
Notation e := (c_endian C).
Notation w := (c_word C).
Notation bw := (c_words C).
Notation bb := (block_bits C).
Context (HI : injector_contract e w bw inj).
Context (Hproc : forall s b x y, c_proc C s b x = c_proc C s b y).

(** An accumulator that has counted [k] blocks more. *)
Definition shift (k : nat) (a : acc C) : acc C := Mk_acc (filled a) (total a + N.of_nat (k * bb))%N (cache a) (cst a).

Lemma shift_0 a : shift 0 a = a.
Proof. destruct a as [f t c s]. unfold shift. cbn [filled total cache cst]. f_equal. rewrite Nat.mul_0_l. apply N.add_0_r. Qed.
Lemma shift_shift j k a : shift j (shift k a) = shift (j + k) a.
Proof. unfold shift. cbn [filled total cache cst]. f_equal. nia. Qed.

Lemma cached_shift k a : cached_bits C (shift k a) = cached_bits C a.
Proof.
  pose proof (bb_pos C WF). unfold cached_bits, shift. cbn [total]. f_equal.
  rewrite Nnat.Nat2N.inj_mul. apply N.mod_add. lia.
Qed.
Lemma flush_shift k a : flush C (shift k a) = shift k (flush C a).
Proof.
  unfold flush, shift. cbn [filled total cache cst]. destruct (filled a) eqn:E; cbn [filled total cache cst].
  - f_equal. apply Hproc.
  - now rewrite E.
Qed.
Lemma wrap_shift t k n : (t + N.of_nat (k * bb) + n < 2 ^ 64)%N ->
  wrap64 (t + N.of_nat (k * bb) + n) = (wrap64 (t + n) + N.of_nat (k * bb))%N.
Proof. intros H. rewrite !wrap64_small; lia. Qed.

Lemma append_shift k a src n : (total a + N.of_nat (k * bb) + N.of_nat n < 2 ^ 64)%N ->
  append_bits C inj (shift k a) src n = option_map (shift k) (append_bits C inj a src n).
Proof.
  intros H. unfold append_bits. rewrite cached_shift. cbn [shift cache total cst filled].
  set (cd := cached_bits C a). set (m := if n <? bb - cd then n else bb - cd).
  assert (Hm : m <= n) by (unfold m; destruct (n <? bb - cd) eqn:E; lia).
  clearbody m.
  destruct (inject inj w bw src m (cache a) cd 0) as [c1|]; [|reflexivity].
  rewrite wrap_shift by lia.
  assert (Hs : wrap64 (total a + N.of_nat m) = (total a + N.of_nat m)%N) by (apply wrap64_small; lia).
  destruct (cd + m =? bb) eqn:E1; [|reflexivity].
  destruct (m <? n) eqn:E2; [|reflexivity].
  destruct (inject inj w bw src (n - m) c1 0 m) as [c2|]; [|reflexivity].
  cbn [option_map]. unfold shift. cbn [filled total cache cst]. do 2 f_equal.
  - rewrite wrap_shift by (rewrite Hs; lia). reflexivity.
  - apply Hproc.
Qed.

Definition feed_len (f : feed) : nat :=
  match f with FBlock _ n => if n =? 0 then bb else n | FWord _ n => if n =? 0 then w else n end.

Lemma feed_shift k a f : (total a + N.of_nat (k * bb) + N.of_nat (feed_len f) < 2 ^ 64)%N ->
  acc_feed C inj (shift k a) f = option_map (shift k) (acc_feed C inj a f).
Proof.
  intros H.
  assert (Hf : total (flush C a) = total a) by (unfold flush; destruct (filled a); reflexivity).
  destruct f as [v n|x n]; cbn [feed_len] in H; cbn [acc_feed].
  - set (n' := if n =? 0 then bb else n) in *. clearbody n'.
    unfold process_block_value. rewrite flush_shift, cached_shift. rewrite <- Hf in H.
    destruct (cached_bits C (flush C a) =? 0); cbn [negb]; [|now apply append_shift].
    cbn [shift cache total cst filled]. rewrite wrap_shift by exact H.
    destruct (n' =? bb); [reflexivity|]. destruct (words_for C n' <=? bw); reflexivity.
  - set (n' := if n =? 0 then w else n) in *. clearbody n'.
    unfold process_word_value. rewrite flush_shift, cached_shift. rewrite <- Hf in H.
    destruct (cached_bits C (flush C a) mod w =? 0); cbn [negb]; [|now apply append_shift].
    cbn [shift cache total cst filled]. rewrite wrap_shift by exact H. reflexivity.
Qed.

(** A word at a word boundary never marks the block as complete. *)
Lemma word_not_filled a M x n a' : flushedR C a M -> fine C M -> length M mod w = 0 ->
  acc_feed C inj a (FWord x n) = Some a' -> filled a' = false.
Proof.
  intros (M0 & T & -> & Ht & Hc & H0 & HT & Hh & Hs & Hf) Hfine Hm E.
  pose proof (bb_pos C WF) as Hbb. pose proof (wf_w C WF) as Wp.
  cbn [acc_feed] in E. unfold process_word_value in E.
  rewrite (cached_spec C WF (flush C a) M0 T) in E by auto.
  assert (ET : length T mod w = 0).
  { rewrite app_length in Hm.
    assert (Hd : length M0 = bb * (length M0 / bb)) by (apply Nat.div_exact; lia).
    rewrite Hd in Hm. unfold block_bits in Hm at 1. rewrite <- Nat.mul_assoc, Nat.add_comm, Nat.mul_comm, Nat.mod_add in Hm by lia.
    exact Hm. }
  rewrite ET in E. cbn [Nat.eqb negb] in E. injection E as <-. exact Hf.
Qed.

Notation bits := (feed_bits C).
Notation surv := (surviving w bb bits).

Lemma feed_len_bits f : feed_ok C f -> length (bits f) = feed_len f /\ 0 < feed_len f.
Proof.
  intros H. split; [rewrite feed_bits_length by exact H; reflexivity|].
  pose proof (bb_pos C WF). pose proof (wf_w C WF).
  destruct f as [v n|x n]; cbn [feed_len]; destruct (n =? 0) eqn:E; lia.
Qed.

(** The count of a pending complete block that nobody marked is what keeps it from being forgotten at once. *)
Lemma forget a M : weakR C a M -> short M -> filled a = false -> length M mod bb = 0 -> M <> [] ->
  exists a', a = shift 1 a' /\ flushedR C a' (firstn (length M - bb) M) /\ bb <= length M.
Proof.
  intros (M0 & T & -> & R & _) Hs Hf Hm Hne. destruct R. pose proof (bb_pos C WF) as Hbb.
  assert (HT : length T = bb).
  { rewrite app_length, <- Nat.add_mod_idemp_l, rf_M0, Nat.add_0_l in Hm by lia.
    destruct (Nat.eq_dec (length T) bb) as [E|E]; [exact E|]. rewrite Nat.mod_small in Hm by lia.
    destruct T; [|discriminate]. rewrite rf_nil in Hne by reflexivity. now elim Hne. }
  assert (Hc : total a = (N.of_nat (length M0) + N.of_nat bb)%N).
  { rewrite rf_total, count_short by exact Hs. unfold blen. rewrite app_length, HT. lia. }
  assert (Hs0 : short M0) by now apply short_prefix in Hs.
  assert (E0 : firstn (length (M0 ++ T) - bb) (M0 ++ T) = M0).
  { rewrite app_length, HT, Nat.add_sub. apply firstn_app_exact. reflexivity. }
  exists (Mk_acc false (N.of_nat (length M0)) (cache a) (cst a)). split; [|split].
  - unfold shift. cbn [filled total cache cst]. rewrite Nat.mul_1_l, <- Hc, <- Hf. destruct a as [f t c s]. reflexivity.
  - rewrite E0. exists M0, []. unfold flush. cbn [filled total cache cst]. rewrite app_nil_r.
    repeat split; auto; try apply rf_cache.
    now rewrite count_short.
  - rewrite app_length. lia.
Qed.

Lemma lossy_feeds fs : forall a k M,
  flushedR C a M -> (fs = [] -> weakR C a M) -> Forall (feed_ok C) fs ->
  (N.of_nat (k * bb + length M + length (flat_map bits fs)) < 2 ^ 64)%N ->
  exists a' k', acc_feeds C inj (shift k a) fs = Some (shift k' a') /\ weakR C a' (surv M fs) /\
    k' * bb + length (surv M fs) = k * bb + length M + length (flat_map bits fs) /\
    (fs <> [] -> surv M fs <> []).
Proof.
  induction fs as [|f fs IH]; intros a k M HR HW HF Hlen.
  - exists a, k. cbn [acc_feeds surviving flat_map length]. rewrite Nat.add_0_r.
    split; [reflexivity|]. split; [now apply HW|]. split; [reflexivity|]. intros H. now elim H.
  - inversion HF as [|? ? Hx HF']; subst. destruct (feed_len_bits f Hx) as [Lf Pf].
    cbn [flat_map] in Hlen |- *. rewrite app_length, Lf in Hlen. rewrite app_length, Lf.
    assert (Ht : total a = N.of_nat (length M)).
    { destruct HR as (M0 & T & _ & Ht & _). unfold flush in Ht.
      assert (E : total a = count M) by (destruct (filled a); exact Ht).
      rewrite E. apply count_short. unfold short, blen. lia. }
    assert (Hs1 : short (M ++ bits f)) by (unfold short, blen; rewrite app_length, Lf; lia).
    assert (Hfeed : acc_feeds C inj (shift k a) (f :: fs) =
      match acc_feed C inj a f with None => None | Some a1 => acc_feeds C inj (shift k a1) fs end).
    { cbn [acc_feeds]. rewrite feed_shift by (rewrite Ht; lia). destruct (acc_feed C inj a f); reflexivity. }
    rewrite Hfeed. clear Hfeed.
    assert (Lm : length (M ++ bits f) = length M + feed_len f) by now rewrite app_length, Lf.
    (* the ordinary case *)
    assert (Ord : forall a1, strictR C a1 (M ++ bits f) -> acc_feed C inj a f = Some a1 ->
      surv M (f :: fs) = surv (M ++ bits f) fs ->
      exists a' k', match acc_feed C inj a f with None => None | Some a1 => acc_feeds C inj (shift k a1) fs end = Some (shift k' a') /\
        weakR C a' (surv M (f :: fs)) /\
        k' * bb + length (surv M (f :: fs)) = k * bb + length M + (feed_len f + length (flat_map bits fs)) /\
        (f :: fs <> [] -> surv M (f :: fs) <> [])).
    { intros a1 R1 E1 Es. rewrite E1, Es.
      destruct (IH a1 k (M ++ bits f)) as (a' & k' & A & B & D & F).
      - now apply flush_spec.
      - intros _. now apply strict_weak.
      - exact HF'.
      - rewrite Lm. lia.
      - exists a', k'. split; [exact A|]. split; [exact B|]. split; [rewrite D, Lm; lia|].
        intros _. destruct fs as [|g fs]; [|apply F; discriminate]. cbn [surviving].
        intros Z. rewrite Z in Lm. cbn [length] in Lm. lia. }
    destruct f as [v n|x n]; destruct Hx as [Hx1 Hx2].
    + destruct (block_feed_flushed C inj WF HI a M v n HR Hx1 Hx2) as (a1 & E1 & R1); [now left|].
      apply (Ord a1); auto.
    + destruct (word_feed_flushed C inj WF HI a M x n HR Hx1 Hx2) as (a1 & E1 & R1 & S1); [now left|].
      destruct ((length M mod w =? 0) && (length (M ++ bits (FWord x n)) mod bb =? 0)) eqn:Ec.
      * apply andb_true_iff in Ec. destruct Ec as [Ec1 Ec2].
        apply Nat.eqb_eq in Ec1, Ec2.
        destruct fs as [|g fs].
        { rewrite E1. exists a1, k. cbn [acc_feeds surviving flat_map length].
          rewrite !andb_false_r. split; [reflexivity|]. split; [exact R1|]. split; [rewrite Lm; lia|].
          intros _ Z. rewrite Z in Lm. cbn [length] in Lm. lia. }
        assert (Hf1 : filled a1 = false).
        { eapply word_not_filled; [exact HR| |exact Ec1|exact E1]. left. unfold short, blen. lia. }
        destruct (forget a1 (M ++ bits (FWord x n))) as (a2 & -> & R2 & Hge); auto.
        { intros Z. rewrite Z in Lm. cbn [length] in Lm. lia. }
        rewrite E1, shift_shift.
        set (M2 := firstn (length (M ++ bits (FWord x n)) - bb) (M ++ bits (FWord x n))) in *.
        assert (L2 : length M2 = length M + feed_len (FWord x n) - bb) by (unfold M2; rewrite firstn_length, Nat.min_l by lia; rewrite Lm; reflexivity).
        assert (Es : surv M (FWord x n :: g :: fs) = surv M2 (g :: fs)).
        { change (surv M (FWord x n :: g :: fs)) with
            (surv (if (length M mod w =? 0) && (length (M ++ bits (FWord x n)) mod bb =? 0) && true then M2 else M ++ bits (FWord x n)) (g :: fs)).
          rewrite Ec1, Ec2. reflexivity. }
        rewrite Es.
        destruct (IH a2 (k + 1) M2) as (a' & k' & A & B & D & F).
        { exact R2. } { discriminate. } { exact HF'. }
        { rewrite L2. cbn [length flat_map] in *. lia. }
        exists a', k'. split; [exact A|]. split; [exact B|]. split; [rewrite D, L2; lia|].
        intros _. apply F. discriminate.
      * apply (Ord a1); auto.
        { apply S1. apply andb_false_iff in Ec. rewrite Lm in Ec. cbn [feed_len] in Ec.
          destruct Ec as [Ec|Ec]; apply Nat.eqb_neq in Ec; [now right|now left]. }
        cbn [surviving]. rewrite Ec. reflexivity.
Qed.
End Lossy.
